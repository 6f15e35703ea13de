(** More about SharpClaw's multistep methods: whole runs of SSPLMMk3 (C29), the third-order check of
    check_lmm_cond = True (C30) and the number of registers that setup allocates (C60). *)
From Verif Require Import Base TimeModel SharpModel SharpSpec SharpProofs SharpProps.
From Verif Require Import MultiModel MultiSpec MultiProofs MultiProofs2 MultiProofs3 MultiProofs4 MultiProps.

(** ** C29: a run of single steps of SSPLMMk3 keeps a convex set that forward Euler keeps, as long as every
    history used spans at most sqrt 8 times each of its forward-Euler steps.  Missing for the full property:
    nothing in the solver enforces this, see C29_ssp_k3_refuted. *)
Theorem C29_ssp_run_k3_partial :
  forall (Idx DX : Type) f speed hook k before (K : (Idx -> Q) -> Prop) (s : solver (hist Idx))
    (so0 : sol (Idx -> Q) DX) n s' so' tr,
  let C := cfl_max s / sspcoeff SSPLMMk3 (Z.of_nat k) in
  (4 <= k)%nat -> fresh k s -> dt_variable s = true -> 0 < dt s -> 0 < cfl_max s -> 0 < cfl_desired s ->
  (forall t q, 0 < speed t q) -> convex K -> (forall t q, K q -> K (hook t q)) ->
  (forall d t q, 0 <= d -> d * speed t q <= C -> K q -> K (fun i => q i + d * f t q i)) ->
  K (sq so0) ->
  multi_runs f speed hook SSPLMMk3 (Z.of_nat k) false [] [] before s so0 (repeat None n) = (s', so', tr) ->
  short_spans speed C k (solutions so0 tr) ->
  Forall (fun p => K (fst p)) (solutions so0 tr).
Proof.
  intros Idx DX f speed hook k before K s so0 n s' so' tr C Hk (F1 & F2 & F3 & F4 & F5 & F6) Hv Hd Hcm Hcd Hs Kc Kh Ke HK E Hss.
  pose proof (runs3 Idx DX f speed hook k before K (cfl_max s) (cfl_desired s) Hk Hcm Hcd Hs Kc Kh Ke so0 n [] s so0 s' so' tr) as R.
  destruct (R (fresh3 Idx DX f speed hook k before K (cfl_max s) (cfl_desired s) so0 s F1 F2 Hv F3 F4 F5 F6 Hd eq_refl eq_refl HK) E) as [_ X].
  apply X. exact Hss.
Qed.
Print Assumptions C29_ssp_run_k3_partial.
Definition short_spans_b {Idx} (speed : Q -> (Idx -> Q) -> Q) (C : Q) (k : nat) (sols : list ((Idx -> Q) * Q)) : bool :=
  forallb (fun n => let past := firstn n sols in
     let H := snd (the_last past) - snd (nth_of_last k past 0) in
     forallb (fun j => let p := nth_of_last k past j in let w := C / speed (snd p) (fst p) in qleb (H * H) (8 * (w * w))) (seq 0 k))
    (seq k (length sols - k)).
Lemma short_spans_dec {Idx} (speed : Q -> (Idx -> Q) -> Q) C k sols : short_spans_b speed C k sols = true -> short_spans speed C k sols.
Proof.
  intros H n Hn j Hj. unfold short_spans_b in H. rewrite forallb_forall in H. specialize (H n ltac:(apply in_seq; lia)).
  cbv zeta in H. rewrite forallb_forall in H. specialize (H j ltac:(apply in_seq; lia)). apply qleb_le in H. exact H.
Qed.
(** Decay with four steps: eight accepted steps, three of them by the starting method. *)
Definition demo_run4 := multi_runs demo_decay (fun _ _ => 1) (fun _ q => q) SSPLMMk3 4 false [] [] (@sx _ _)
  (demo_multi 4 (1 # 2) (1 # 3) (3 # 10) true) demo_sol (repeat None 8).
Example C29_ssp_run_k3_example :
  let s := demo_multi 4 (1 # 2) (1 # 3) (3 # 10) true in
  let C := cfl_max s / sspcoeff SSPLMMk3 (Z.of_nat 4) in
  fresh 4 s /\ (forall d t q, 0 <= d -> d * 1 <= C -> demo_K q -> demo_K (fun i => q i + d * demo_decay t q i)) /\
  length (solutions demo_sol (snd demo_run4)) = 9%nat /\
  short_spans (fun _ _ => 1) C 4 (solutions demo_sol (snd demo_run4)).
Proof.
  cbv zeta. split; [repeat split|]. split; [|split; [vm_compute; reflexivity|apply short_spans_dec; vm_compute; reflexivity]].
  intros d t q H0 H1 [H2 H3]. assert (E : cfl_max (demo_multi 4 (1 # 2) (1 # 3) (3 # 10) true) / sspcoeff SSPLMMk3 (Z.of_nat 4) == 1) by reflexivity.
  rewrite E in H1. unfold demo_K, demo_decay. split; nra.
Qed.

(** ** C30: the third-order check.  With [nregs] registers the step into solution number [step_index] passes iff
    - during start-up it is at most rho forward-Euler steps long, and
    - the forward-Euler steps before and after it differ at most by the factor rhoFE. *)
Definition third_order_rho (nregs : Z) : Q := if Z.eqb nregs 4 then 6 # 10 else 57 # 100.
Definition third_order_rhoFE (nregs : Z) : Q := if Z.eqb nregs 4 then 9 # 10 else 962 # 1000.
Definition third_order (nregs step_index : Z) (dt dtFE last_dtFE : Q) : Prop :=
  ((step_index <= nregs)%Z -> dt <= third_order_rho nregs * dtFE) /\
  third_order_rhoFE nregs * last_dtFE <= dtFE /\ third_order_rhoFE nregs * dtFE <= last_dtFE.
Lemma check_third_order nregs i dt dtFE l : check_3rd_ord_cond nregs i dt dtFE l = true <-> third_order nregs i dt dtFE l.
Proof.
  unfold check_3rd_ord_cond, third_order. fold (third_order_rho nregs) (third_order_rhoFE nregs). cbv zeta.
  assert (P : 0 < third_order_rhoFE nregs) by (unfold third_order_rhoFE; destruct (Z.eqb nregs 4); reflexivity).
  assert (D : l / third_order_rhoFE nregs < dtFE <-> ~ third_order_rhoFE nregs * dtFE <= l).
  { split.
    - intros H. apply Qlt_not_le. setoid_replace l with (third_order_rhoFE nregs * (l / third_order_rhoFE nregs)) by (field; lra).
      apply Qmult_lt_l; auto.
    - intros H. apply Qnot_le_lt in H. apply Qlt_shift_div_r; auto. lra. }
  rewrite negb_true_iff, !orb_false_iff, andb_false_iff, Z.leb_gt. split.
  - intros [[H1 H2] H3]. split; [|split].
    + intros Hi. destruct H1 as [H1|H1]; [lia|]. apply qltb_ge in H1. exact H1.
    + apply qltb_ge in H2. exact H2.
    + apply qltb_ge in H3. destruct (Qlt_le_dec l (third_order_rhoFE nregs * dtFE)) as [B|B]; [|exact B].
      exfalso. apply Qlt_not_le in B. apply D in B. lra.
  - intros (H1 & H2 & H3). split; [split|].
    + destruct (Z_le_gt_dec i nregs) as [Hi|Hi]; [right; apply qltb_ge; auto|left; lia].
    + apply qltb_ge. exact H2.
    + apply qltb_ge. apply Qnot_lt_le. intros B. apply D in B. contradiction.
Qed.
(** What it decides: a step that fails is taken back, nothing is saved; one that passes keeps the solution and
    saves it.  In neither case does anything else change. *)
Theorem C30_third_order_partial :
  forall (Idx DX : Type) k (s : solver (hist Idx)) (so : sol (Idx -> Q) DX) i,
  let h := ext s in
  let nregs := Z.of_nat (length (h_regs h)) in
  let r := update_saved_values SSPLMMk3 k true s so i in
  let ok := third_order nregs i (dt s) (dtFE_now SSPLMMk3 k s) (last (h_dtFEs h) 0) in
  accept_step s = true -> h_dts h <> [] -> h_regs h <> [] ->
  (ok ->
     snd (fst r) = so /\ snd r = i /\ accept_step (fst (fst r)) = true /\ st_numsteps (fst (fst r)) = st_numsteps s /\
     last (h_regs (ext (fst (fst r)))) (sq so, st so) = (sq so, st so) /\
     last (h_dtFEs (ext (fst (fst r)))) 0 = dtFE_now SSPLMMk3 k s) /\
  (~ ok ->
     (sq (snd (fst r)), st (snd (fst r))) = last (h_regs h) (sq so, st so) /\ sx (snd (fst r)) = sx so /\
     accept_step (fst (fst r)) = false /\ st_numsteps (fst (fst r)) = (st_numsteps s - 1)%Z /\ snd r = st_numsteps s /\
     h_regs (ext (fst (fst r))) = h_regs h /\ h_dts (ext (fst (fst r))) = h_dts h /\
     h_dtFEs (ext (fst (fst r))) = h_dtFEs h /\ h_fs (ext (fst (fst r))) = h_fs h) /\
  (ok \/ ~ ok).
Proof.
  intros Idx DX k s so i h nregs r ok Ha Hd Hr.
  assert (OK : ok <-> check_3rd_ord_cond nregs i (dt s) (dtFE_now SSPLMMk3 k s) (last (h_dtFEs h) 0) = true).
  { symmetry. apply check_third_order. }
  unfold r, update_saved_values. fold h. fold nregs. destruct (h_dts h) as [|d0 dts] eqn:Ed; [congruence|].
  rewrite Ha. cbn [is_k3 andb is_ssp].
  destruct (check_3rd_ord_cond nregs i (dt s) (dtFE_now SSPLMMk3 k s) (last (h_dtFEs h) 0)) eqn:Ec.
  - split; [|split]; [intros _|intros N; exfalso; apply N, OK; reflexivity|left; apply OK; reflexivity].
    cbn [negb fst snd]. repeat split; try exact Ha.
    + change (last (roll (h_regs h) (sq so, st so)) (sq so, st so) = (sq so, st so)). apply last_snoc.
    + change (last (if Z.leb i nregs then h_dtFEs h ++ [dtFE_now SSPLMMk3 k s] else roll (h_dtFEs h) (dtFE_now SSPLMMk3 k s)) 0
              = dtFE_now SSPLMMk3 k s). destruct (Z.leb i nregs); apply last_snoc.
  - split; [|split]; [intros O; apply OK in O; discriminate| |right; rewrite OK; discriminate].
    intros _. cbn [negb fst snd]. repeat split.
    + cbn [sq st]. destruct (last (h_regs h) (sq so, st so)). reflexivity.
    + cbn. lia.
Qed.
Print Assumptions C30_third_order_partial.
(** Both happen: dtFE goes from 1 to 19/20 (passes) and from 1 to 2 (does not). *)
Example C30_third_order_example :
  third_order 4 5 7 (19 # 20) 1 /\ ~ third_order 4 5 7 2 1 /\ ~ third_order 4 5 7 (1 # 2) 1 /\ ~ third_order 4 4 7 1 1 /\
  third_order 4 4 (6 # 10) 1 1.
Proof. rewrite <- !check_third_order. vm_compute. repeat split; congruence. Qed.

(** ** C60: setup allocates registers for every other integrator, and they suffice: a step never reads or writes
    a register that does not exist. *)
Theorem C60_registers_partial :
  forall (Idx : Type) (nb nalpha steps n : Z),
  (nregisters SSP33 nb nalpha steps = Some n -> (1 <= n)%Z) /\
  (nregisters SSP104 nb nalpha steps = Some n -> (1 <= n)%Z) /\
  (nregisters RK nb nalpha steps = Some n ->
     forall f hook d m a c k0 t (q : Idx -> Q), Z.of_nat m = nb -> (1 <= m)%nat ->
     (Z.of_nat (length (rk_registers f hook d (m - 1) a c k0 t q)) <= n)%Z) /\
  (nregisters SSPLMMk2 nb nalpha steps = Some n ->
     forall d dts (regs : list (Idx -> Q)) k0 q, Z.of_nat (length regs) = n -> (1 <= steps)%Z ->
     ssplmm2 d steps dts regs k0 q <> None) /\
  (nregisters SSPLMMk3 nb nalpha steps = Some n ->
     forall d dts (regs fs : list (Idx -> Q)) q, Z.of_nat (length regs) = n -> length fs = length regs -> (1 <= steps)%Z ->
     ssplmm3 d steps dts regs fs q <> None) /\
  (nregisters LMM nb nalpha steps = Some n ->
     forall d alpha beta (regs fs : list (Idx -> Q)), Z.of_nat (length regs) = n -> length fs = length regs ->
     Z.of_nat (length alpha) = nalpha -> length beta = length alpha -> (1 <= nalpha)%Z -> steps = nalpha ->
     lmm d steps alpha beta regs fs <> None).
Proof.
  intros Idx nb nalpha steps n. cbn [nregisters].
  split; [intros H; injection H as <-; lia|]. split; [intros H; injection H as <-; lia|].
  split; [|split; [|split]]; intros H; injection H as <-.
  - intros f hook d m a c k0 t q Hm H1.
    assert (L : forall j, length (rk_registers f hook d j a c k0 t q) = S j).
    { induction j; [reflexivity|]. cbn [rk_registers]. rewrite app_length, IHj. cbn [length]. lia. }
    rewrite L. lia.
  - intros d dts regs k0 q L H1. unfold ssplmm2.
    replace (- steps)%Z with (- Z.of_nat (Z.to_nat steps))%Z by lia.
    rewrite (pyindex_neg regs (Z.to_nat steps) (fun _ => 0)) by lia. discriminate.
  - intros d dts regs fs q L Lf H1. unfold ssplmm3.
    replace (- steps)%Z with (- Z.of_nat (Z.to_nat steps))%Z by lia.
    rewrite (pyindex_last fs (fun _ => 0)) by (destruct fs; cbn in *; [lia|discriminate]).
    rewrite (pyindex_neg regs (Z.to_nat steps) (fun _ => 0)) by lia. cbn [bind2].
    rewrite (pyindex_neg fs (Z.to_nat steps) (fun _ => 0)) by lia. discriminate.
  - intros d alpha beta regs fs L Lf La Lb H1 ->.
    destruct (lmm_correct Idx d alpha beta regs fs (length alpha) ltac:(lia) ltac:(lia) ltac:(lia) ltac:(lia) ltac:(lia)) as (q' & E & _).
    rewrite <- La, E. discriminate.
Qed.
Print Assumptions C60_registers_partial.
Example C60_registers_example : nregisters SSPLMMk3 0 0 4 = Some 4%Z /\ nregisters RK 4 0 4 = Some 5%Z /\ nregisters LMM 0 3 4 = Some 3%Z.
Proof. repeat split. Qed.
