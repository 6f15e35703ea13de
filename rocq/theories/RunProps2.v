(** Property C92: what decreases from step to step decreases from frame to frame; advection. *)
From Coq Require Import Sorted.
From Verif Require Import Base BCModel BCSpec BCProofs TimeModel TimeSpec TimeProofs TimeProofs2 ControllerModel ControllerSpec ControllerProofs ControllerProps
  LimiterModel Classic1DModel Classic1DSpec Classic1DProofs Classic1DProofs2 Classic1DProofs3 Classic1DProps SharpModel WenoModel SemiModel SemiSpec SemiProofs SemiProofs2 SemiProps ReconModel ReconProps SweepModel SweepSpec SweepProofs
  SweepProps UnsplitModel MSemiModel MSemiSpec MSemiProofs MSemiProps MSemiProps2 RunModel RunSpec RunProofs RunProps.

Lemma many_split {DQ DX E} (evolve : solver E -> sol DQ DX -> option Q -> result DQ DX E) a b s u :
  many_err (many evolve s u (a ++ b)) = None ->
  many_err (many evolve s u a) = None /\
  many evolve s u (a ++ b) = many evolve (fst (fst (many evolve s u a))) (many_sol (many evolve s u a)) b.
Proof.
  revert s u. induction a as [|x a IH]; intros s u H; cbn [app many] in *; [split; reflexivity|].
  destruct (r_err (evolve s u x)) as [e|]; [discriminate|]. apply IH. exact H.
Qed.

Section Frames.
Context {DQ DX E : Type}.
Variable evolve : solver E -> sol DQ DX -> option Q -> result DQ DX E.
Variable R : DQ -> DQ -> Prop.
Variable Ix : DX -> Prop.
Variable Is : solver E -> Prop.
Hypothesis Rrefl : forall q, R q q.
Hypothesis He : forall q0 s so tend, Is s -> R q0 (sq so) -> Ix (sx so) -> r_err (evolve s so tend) <> Some ECflTooLarge ->
  Is (r_solver (evolve s so tend)) /\ Ix (sx (r_sol (evolve s so tend))) /\ R q0 (sq (r_sol (evolve s so tend))).
Lemma many_rel args : forall q0 s u, Is s -> Ix (sx u) -> R q0 (sq u) -> many_err (many evolve s u args) = None ->
  Is (fst (fst (many evolve s u args))) /\ Ix (sx (many_sol (many evolve s u args))) /\ R q0 (sq (many_sol (many evolve s u args))).
Proof.
  induction args as [|x args IH]; intros q0 s u H1 H2 H3 H; cbn [many] in *; [auto|].
  destruct (r_err (evolve s u x)) as [e|] eqn:Er; [discriminate|].
  destruct (He q0 s u x H1 H3 H2) as (A & B & D); [rewrite Er; discriminate|]. apply IH; assumption.
Qed.
Lemma frames_sorted s u blocks k : Is s -> Ix (sx u) -> (forall j, (j <= k)%nat -> many_err (reached evolve s u blocks j) = None) ->
  forall n j, (j + n <= k)%nat ->
  LocallySorted (fun a b => R (sq a) (sq b)) (map (fun j => many_sol (reached evolve s u blocks j)) (seq j (S n))).
Proof.
  intros H1 H2 Hj. induction n as [|n IH]; intros j Hn; [constructor|].
  change (seq j (S (S n))) with (j :: S j :: seq (S (S j)) n). cbn [map]. constructor.
  - apply (IH (S j)). lia.
  - pose proof (Hj (S j) ltac:(lia)) as H. unfold reached in *.
    destruct (Nat.lt_ge_cases j (length blocks)) as [Hl|Hl].
    + destruct (nth_error blocks j) as [bl|] eqn:Eb; [|apply nth_error_None in Eb; lia].
      assert (Ef : firstn (S j) blocks = firstn j blocks ++ [bl]).
      { clear -Eb. revert blocks Eb. induction j as [|j IH]; intros [|x l] Eb; try discriminate; cbn in *; [injection Eb as ->; reflexivity|]. f_equal. apply IH. exact Eb. }
      rewrite Ef, concat_app in *. cbn [concat] in *. rewrite app_nil_r in *.
      destruct (many_split evolve _ _ _ _ H) as [H3 H4].
      destruct (many_rel (concat (firstn j blocks)) (sq u) s u H1 H2 (Rrefl _) H3) as (A & B & _).
      rewrite H4 in *. apply (many_rel bl); auto.
    + rewrite !firstn_all2 by lia. apply Rrefl.
Qed.
End Frames.

(** C90 for relations: if every accepted step keeps q within what R allows from any starting point, then each frame is
    related to the one before. *)
Theorem C90_frames_related :
  forall (DQ DX E P F : Type) (R : DQ -> DQ -> Prop) (Ix : DX -> Prop) source hyper split before setup valid (c : controller DQ DX P F)
    (w w' : world DQ DX E P F) o,
  let s0 := if w_set_up w then w_solver w else setup (w_solver w) in
  (forall q, R q q) -> sane s0 -> (forall q0, classic_keeps (R q0) Ix source hyper before (cfl_max s0)) -> Ix (sx (w_sol w)) ->
  acceptable c w -> valid s0 (w_sol w) = true ->
  run (classic_evolve source hyper split before) setup valid c w = (w', o) ->
  exists frames, w_out w' = w_out w ++ run_files c (w_start w) (w_sol w) frames /\
  w_frames w' = w_frames w ++ (if c_keep c then w_sol w :: frames else []) /\
  LocallySorted (fun a b => R (sq a) (sq b)) (w_sol w :: frames).
Proof.
  intros DQ DX E P F R Ix source hyper split before setup valid c w w' o s0 Rr HS HK Hx HA HV H.
  destruct (C44_frames DQ DX E P F _ setup valid c w w' o HA HV H) as (blocks & k & _ & Hk & Hj & HO & HF & _). fold s0 in Hj, HO, HF.
  eexists. split; [exact HO|]. split; [exact HF|].
  pose proof (frames_sorted (E := E) (classic_evolve source hyper split before) R Ix (sane_at (cfl_max s0)) Rr) as K.
  assert (K0 : forall q0 (s : solver E) (so : sol DQ DX) tend, sane_at (cfl_max s0) s -> R q0 (sq so) -> Ix (sx so) ->
    r_err (classic_evolve source hyper split before s so tend) <> Some ECflTooLarge ->
    sane_at (cfl_max s0) (r_solver (classic_evolve source hyper split before s so tend)) /\
    Ix (sx (r_sol (classic_evolve source hyper split before s so tend))) /\
    R q0 (sq (r_sol (classic_evolve source hyper split before s so tend)))).
  { intros q0 s so tend I1 I2 I3 I4.
    pose proof (evolve_keeps (E := E) (classic_step source hyper split) accept_reject_step before (R q0) Ix (sane_at (cfl_max s0))
      (classic_frame source hyper split) (proj1 (HK q0))) as M.
    match type of M with ?A -> _ => assert (P1 : A) by (intros x y G Hd _ _; apply (sane_at_is _ x y G Hd)) end. specialize (M P1).
    match type of M with ?A -> _ => assert (P3 : A) end.
    { intros tstart te x y x' y' HI Ht G1 G2 G3.
      exact (classic_step_keeps (R q0) Ix source hyper split before (cfl_max s0) (HK q0) tstart te x y x' y' HI Ht G1 G2 G3). }
    specialize (M P3 s so tend (classic_evolve source hyper split before s so tend) I1 I2 I3 eq_refl).
    destruct M as (A & B & D). auto. }
  specialize (K K0 s0 (w_sol w) blocks k (conj HS eq_refl) Hx Hj k 0%nat ltac:(lia)). cbn [seq map] in K. exact K.
Qed.
Print Assumptions C90_frames_related.

(** ** C92: advection *)
Lemma adv_courant pow undef L C u q aux qbc0 auxbc0 q' cf :
  advection_settings u C -> (2 <= c_ng C)%nat -> periodic_bc (c_bc C) -> (Z.of_nat (c_ng C) <= cells C)%Z ->
  step_hyperbolic pow undef L C q aux qbc0 auxbc0 = Stepped q' cf -> Qabs u * (c_dt C / c_dx C) <= cf \/ c_dt C / c_dx C < 0.
Proof.
  intros HA Hg HP Hmx H. pose proof HA as (En & Ew & _ & _ & Er & Ec). unfold cells in *.
  destruct (step_ok pow undef C L q aux qbc0 auxbc0 ltac:(lia) (periodic_fit C HP ltac:(lia) Hmx)) as (qbc & auxbc & _ & _ & E).
  rewrite E in H. destruct (kernel pow undef L C qbc auxbc) as [[q1 c1]|] eqn:EK; [|discriminate]. injection H as _ <-.
  destruct (C57_courant_number pow undef L C qbc auxbc q1 c1 ltac:(unfold cells; lia) EK) as (_ & K & _).
  destruct (K 0%Z (Z.of_nat (c_ng C)) ltac:(rewrite Ew; lia) ltac:(unfold cells; lia)) as [K1 K2].
  rewrite Er in K1, K2. unfold capacity in K1, K2. rewrite Ec in K1, K2. cbn [advection o_s] in K1, K2.
  assert (Ed : c_dt C / (c_dx C * 1) == c_dt C / c_dx C) by (rewrite Qmult_1_r; reflexivity).
  rewrite Ed in K1, K2. set (l := c_dt C / c_dx C) in *.
  destruct (Qlt_le_dec l 0) as [Hl|Hl]; [right; exact Hl|left].
  destruct (Qlt_le_dec u 0) as [Hu|Hu].
  - rewrite Qabs_neg by lra. lra.
  - rewrite Qabs_pos by lra. lra.
Qed.

(** Total variation does not grow and no new extrema appear, between any two consecutive frames of any run whose accepted
    steps have Courant number at most 1. *)
Theorem C92_advection_run :
  forall (E P F : Type) pow undef L C u stale split before setup valid (c : controller (arr Q) (arr Q) P F)
    (w w' : world (arr Q) (arr Q) E P F) o,
  let s0 := if w_set_up w then w_solver w else setup (w_solver w) in
  sane s0 -> cfl_max s0 <= 1 ->
  advection_settings u C -> (2 <= c_ng C)%nat -> periodic_bc (c_bc C) -> (Z.of_nat (c_ng C) <= cells C)%Z -> 0 < c_dx C ->
  c_order C = 1%Z \/ (forall nu, 0 <= nu <= 1 -> tvd_limiter pow L (c_mthlim C 0) nu) ->
  (forall so, fst (before so) = sq so) -> acceptable c w -> valid s0 (w_sol w) = true ->
  run (classic_evolve None (hyper_1d pow undef L C stale) split before) setup valid c w = (w', o) ->
  exists frames, w_out w' = w_out w ++ run_files c (w_start w) (w_sol w) frames /\
  w_frames w' = w_frames w ++ (if c_keep c then w_sol w :: frames else []) /\
  LocallySorted (fun a b =>
    tv (cells C) (flat (sq b) 0%Z) <= tv (cells C) (flat (sq a) 0%Z) /\
    forall lo hi, (forall i, (0 <= i < cells C)%Z -> lo <= flat (sq a) 0%Z i <= hi) ->
    forall i, (0 <= i < cells C)%Z -> lo <= flat (sq b) 0%Z i <= hi) (w_sol w :: frames).
Proof.
  intros E P F pow undef L C u stale split before setup valid c w w' o s0 HS HM HA Hg HP Hmx Hdx HT HB HAc HV H.
  refine (C90_frames_related _ _ E P F (fun a b => tv (cells C) (flat b 0%Z) <= tv (cells C) (flat a 0%Z) /\
    forall lo hi, (forall i, (0 <= i < cells C)%Z -> lo <= flat a 0%Z i <= hi) -> forall i, (0 <= i < cells C)%Z -> lo <= flat b 0%Z i <= hi)
    (fun _ => True) None (hyper_1d pow undef L C stale) split before setup valid c w w' o _ HS _ Logic.I HAc HV H).
  - intros q. split; [apply Qle_refl|]. auto.
  - intros q0. split; [intros so H1 _; rewrite HB; auto|]. split; [discriminate|].
    intros d so Hd [H1 H2] _. split; [exact Logic.I|]. unfold hyper_1d.
    set (C' := with_dt C d). assert (HA' : advection_settings u C') by exact HA.
    destruct (step_hyperbolic pow undef L C' (sq so) (sx so) (fst (stale d so)) (snd (stale d so))) as [q' cf|e|] eqn:Es; cbn [fst snd]; intros Hc; [|auto|auto].
    assert (Hlam : 0 <= c_dt C' / c_dx C') by (apply Qlt_le_weak, Qdiv_pos; assumption).
    destruct (adv_courant pow undef L C' u _ _ _ _ _ _ HA' Hg HP Hmx Es) as [Hn|Hn]; [|lra].
    assert (Hn1 : Qabs u * (c_dt C' / c_dx C') <= 1) by (eapply Qle_trans; [exact Hn|]; eapply Qle_trans; [exact Hc|exact HM]).
    assert (Hn0 : 0 <= Qabs u * (c_dt C' / c_dx C')) by (apply Qmult_le_0_compat; [apply Qabs_nonneg|exact Hlam]).
    destruct (C21_C22_tvd pow undef L C' u (sq so) (sx so) (fst (stale d so)) (snd (stale d so)) HA' Hg HP Hmx Hlam Hn1) as (q1 & c1 & E1 & T1 & T2).
    { destruct HT as [HT|HT]; [left; exact HT|right; apply HT; split; assumption]. }
    rewrite Es in E1. injection E1 as <- <-. split.
    + change (tv (cells C) (q' 0%Z) <= tv (cells C) (flat q0 0%Z)). change (tv (cells C) (q' 0%Z) <= tv (cells C) (flat (sq so) 0%Z)) in T1. lra.
    + intros lo hi Hlo i Hi. exact (T2 lo hi (H2 lo hi Hlo) i Hi).
Qed.
Print Assumptions C92_advection_run.

(** ** Examples *)
Definition run_set : settings := demo_set 2 4 (advection (- (2))) 0 Periodic.
Definition run_solver (d : Q) : solver unit := mkSolver d None 100 true (9 # 10) 1 (9 # 10) 1000 None None None 0 true tt.
Definition run_w (q aux : arr Q) (d : Q) : world (arr Q) (arr Q) unit unit unit :=
  mkWorld (run_solver d) true (mkSol q aux 0) 0 [] false [].
Definition run_c (tfinal : Q) (n : Z) : controller (arr Q) (arr Q) unit unit :=
  mkController 1 tfinal n [] 1 true false false true true None None.
Definition run_valid (s : solver unit) (u : sol (arr Q) (arr Q)) : bool := true.
Definition run_before (so : sol (arr Q) (arr Q)) : arr Q * arr Q := (sq so, sx so).
Definition run_stale (d : Q) (so : sol (arr Q) (arr Q)) : arr Q * arr Q := (zero_arr, zero_arr).
Definition run_1d (C : settings) (q aux : arr Q) (d tfinal : Q) (n : Z) :=
  run (classic_evolve None (hyper_1d nopow noundef Python C run_stale) 1 run_before) (fun s => s) run_valid (run_c tfinal n) (run_w q aux d).
(** C92: advection on three cells with the monotonised central limiter.  The first step attempted has Courant number 2 and
    is rejected; two frames follow, over which the total variation falls from 8. *)
Example C92_example :
  let w := run_w demo_data zero_arr 1 in
  sane (w_solver w) /\ cfl_max (w_solver w) <= 1 /\ advection_settings (- (2)) run_set /\ periodic_bc (c_bc run_set) /\
  (forall nu, 0 <= nu <= 1 -> tvd_limiter nopow Python (c_mthlim run_set 0) nu) /\ acceptable (run_c (1 # 2) 2) w /\
  let r := run_1d run_set demo_data zero_arr 1 (1 # 2) 2 in
  snd r = None /\ st_numsteps (w_solver (fst r)) = 2%Z /\
  match map (fun u => tv 3 (flat (sq u) 0%Z)) (w_frames (fst r)) with
  | [a; b; c] => (Qeq_bool a 8 && qltb b a && qltb c b)%bool = true
  | _ => False
  end.
Proof.
  cbv zeta. split; [repeat split|]. split; [cbn; lra|]. split; [repeat split|]. split; [repeat split|]. split.
  { intros nu Hnu. apply (proj1 (C22_tvd_limiters nopow nu Hnu)). cbn. auto. }
  split; [split; [left; cbn; split; [reflexivity|lia]|reflexivity]|].
  split; [vm_compute; reflexivity|]. split; vm_compute; reflexivity.
Qed.

(** C90, C91: Burgers' equation with a capacity function, two steps. *)
Example C91_classic_1d_example :
  let C := demo_set 2 4 burgers 1 Periodic in
  let w := run_w demo_data demo_capa (1 # 2) in
  sane (w_solver w) /\ periodic_bc (c_bc C) /\ conservative (c_neq C) burgers_flux (c_rp C) /\ capa_in_aux C /\
  (forall i, (0 <= i < cells C)%Z -> 0 < capacity C (flat demo_capa) i) /\ leaves_totals C run_before /\
  let r := run_1d C demo_data demo_capa (1 # 2) (3 # 4) 1 in
  snd r = None /\ st_numsteps (w_solver (fst r)) = 2%Z /\ 
  match w_frames (fst r) with
  | [u; v] => (negb (Qeq_bool (sq u 0 [0])%Z (sq v 0 [0])%Z) && Qeq_bool (total C 0 (flat demo_capa) (flat (sq v)) 0) (7 # 2))%bool = true
  | _ => False
  end.
Proof.
  cbv zeta. split; [repeat split|]. split; [repeat split|]. split; [apply burgers_conservative|].
  split; [intros k E; injection E as <-; cbn; lia|]. split.
  { intros i Hi. unfold capacity, flat, demo_capa. cbn [demo_set c_capa].
    assert (H : 0 < 1 # 2 /\ 0 < 1) by (split; reflexivity). destruct H as (H1 & H2).
    repeat match goal with |- 0 < (match ?x with _ => _ end) => destruct x end; assumption. }
  split; [intros so; split; intros; reflexivity|].
  split; [vm_compute; reflexivity|]. split; vm_compute; reflexivity.
Qed.

(** Two dimensions: advection in x, Burgers' equation in y, limited, with a capacity function. *)
Example C91_classic_md_example :
  let w := run_w data2 capa2 (1 # 8) in
  let step := split_step noundef in
  sane (w_solver w) /\ Forall (periodic_dim (n_ng demo2)) (n_bcs demo2) /\ mleaves_totals demo2 run_before /\
  let r := run (classic_evolve None (hyper_md step demo2 run_stale) 1 run_before) (fun s => s) run_valid (run_c (1 # 8) 1) w in
  snd r = None /\
  match w_frames (fst r) with
  | [u; v] => (negb (Qeq_bool (sq u 0 [1;1])%Z (sq v 0 [1;1])%Z) && Qeq_bool (mtotal demo2 capa2 (sq v) 0) (-(7)))%bool = true
  | _ => False
  end.
Proof.
  cbv zeta. split; [repeat split|]. split; [repeat constructor; cbn; lia|].
  split; [intros so; split; intros; reflexivity|]. split; vm_compute; reflexivity.
Qed.

(** SharpClaw in one and two dimensions: Burgers' equation, forward Euler; in one dimension the second-order reconstruction in characteristic variables. *)
Definition sharp_c {Idx} : controller (Idx -> Q) (arr Q) unit unit := mkController 1 (1 # 16) 1 [] 1 true false false true true None None.
Definition sharp_w {Idx} (u : Idx -> Q) : world (Idx -> Q) (arr Q) (Idx -> Q) unit unit :=
  mkWorld (mkSolver (1 # 16) None 100 true (1 # 4) (1 # 2) (1 # 4) 1000 None None None 0 true (fun _ => 0)) true (mkSol u zero_arr 0) 0 [] false [].
Example C91_sharpclaw_1d_example :
  let C := semi_set4 0 in
  let w := sharp_w semi_u4 in
  sane (w_solver w) /\ accept_step (w_solver w) = true /\ periodic_bc (c_bc C) /\ conservative 1 burgers_flux burgers /\ sound_method C burgers_flux tvd_method /\
  c_capa C = None /\
  let r := run (sharp_evolve (rk_slope (fun aux => rhs tvd_method C aux zero_arr zero_arr) (fun _ => 4))
    (rk_stages (fun aux => rhs tvd_method (register_settings tvd_method C) aux zero_arr zero_arr) (fun _ u => u) (fun d _ => d * 4) 0 (fun _ _ => 0)
       (fun _ => 0) (fun _ => 0) Euler) (fun so => (sq so, sx so))) (fun s => s) (fun _ _ => true) sharp_c w in
  snd r = None /\
  match w_frames (fst r) with
  | [u; v] => (negb (Qeq_bool (sq u (0, 1)%Z) (sq v (0, 1)%Z)) && Qeq_bool (mass C (fun _ _ => 0) 0 (sq v)) 6)%bool = true
  | _ => False
  end.
Proof.
  cbv zeta. split; [repeat split|]. split; [reflexivity|]. split; [vm_compute; tauto|]. split; [apply burgers_conservative|].
  split; [apply C86_sound; [vm_compute; lia|vm_compute; discriminate|]; right; right; right; repeat eexists; reflexivity|]. split; [reflexivity|]. split; vm_compute; reflexivity.
Qed.
Example C91_sharpclaw_md_example :
  let S := msemi_set Periodic Periodic in
  let rc := order1 in
  let w := sharp_w msemi_u in
  sane (w_solver w) /\ Forall (periodic_dim 3) (n_bcs S) /\ all_conservative S (fun _ => burgers_flux) /\ determined S rc /\
  let f aux := mrhs rc None S (fun _ _ => no_edges) aux zero_arr zero_arr in
  let r := run (sharp_evolve (rk_slope f (fun _ => 4)) (rk_stages f (fun _ u => u) (fun d _ => d * 4) 0 (fun _ _ => 0)
       (fun _ => 0) (fun _ => 0) Euler) (fun so => (sq so, sx so))) (fun s => s) (fun _ _ => true) sharp_c w in
  snd r = None /\
  match w_frames (fst r) with
  | [u; v] => (negb (Qeq_bool (sq u (0, [1;0])%Z) (sq v (0, [1;0])%Z)) && Qeq_bool (mtotal1 S 0 (sq v)) (11 # 2))%bool = true
  | _ => False
  end.
Proof.
  cbv zeta. split; [repeat split|].
  split; [constructor; [|constructor; [|constructor]]; unfold periodic_dim, periodic_bc; cbn; repeat split; auto; lia|].
  split; [intros d _; apply burgers_conservative|]. split; [apply (order1_ok _ (fun _ => burgers_flux)); vm_compute; lia|].
  split; vm_compute; reflexivity.
Qed.
