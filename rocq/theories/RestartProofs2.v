(** A run that is continued from one of its frames. *)
From Verif Require Import Base TimeModel TimeSpec TimeProofs TimeProofs2 ControllerModel ControllerSpec ControllerProofs RestartSpec RestartProofs.

Section Run.
Context {DQ DX E P F : Type}.
Variable stepf : Q -> option Q -> solver E -> sol DQ DX -> solver E * sol DQ DX.
Variable before : sol DQ DX -> DQ * DX.
Variable need : bool.
Hypothesis frame : step_frame stepf.
Hypothesis Hstep : forall ts te te2 s s2 so, agree need s s2 -> same_time te te2 ->
  snd (stepf ts te s so) = snd (stepf ts te2 s2 so) /\ dt (fst (stepf ts te s so)) = dt (fst (stepf ts te2 s2 so)) /\
  cfl (fst (stepf ts te s so)) = cfl (fst (stepf ts te2 s2 so)).
Hypothesis Hdt : forall ts te s so, dt_variable s = false -> ready need s ->
  dt (fst (stepf ts te s so)) = dt (get_dt_clip (st so) ts te s).
Notation evolve := (evolve_to_time stepf accept_reject_step before).
Notation agree := (agree need).

Lemma agree_parts (s s2 : solver E) : agree s s2 -> dt_variable s2 = false /\ ready need s2 /\ dt s2 = dt s.
Proof. intros ((A1 & A2 & A3 & A4) & A5 & A6). repeat split; assumption. Qed.

(** Frames at given times *)
Lemma times_keep : forall ts t s u, dt_variable s = false -> ready need s -> canonical (dt s) -> tol10 < dt s ->
  st u == t -> steps_apart (dt s) t ts -> Forall (fun x => eps14 * x <= dt s) ts ->
  forall j, (j <= length ts)%nat -> many_err (many evolve s u (map Some (firstn j ts))) = None ->
  agree s (fst (fst (many evolve s u (map Some (firstn j ts))))) /\
  st (many_sol (many evolve s u (map Some (firstn j ts)))) == nth j (t :: ts) 0.
Proof.
  induction ts as [|x ts IH]; intros t s u V R Hc Hd Ht Hw Hs j Hj He.
  - destruct j as [|j]; [|cbn in Hj; lia]. cbn. split; [apply agree_refl; assumption|exact Ht].
  - destruct j as [|j]; [cbn; split; [apply agree_refl; assumption|exact Ht]|].
    cbn [steps_apart] in Hw. destruct Hw as [(N & HN & Hx) Hw]. apply Forall_cons_iff in Hs. destruct Hs as [Hs1 Hs2].
    assert (Hx' : x == st u + inject_Z N * dt s) by (rewrite Ht; exact Hx).
    cbn [firstn map many] in *.
    destruct (r_err (evolve s u (Some x))) as [e|] eqn:EE; [discriminate He|].
    destruct (evolve_keeps stepf before need frame Hdt x N s u V R Hc Hd Hx' HN Hs1 EE) as (A & T).
    pose proof (agree_parts _ _ A) as (V' & R' & D').
    change (nth (S j) (t :: x :: ts) 0) with (nth j (x :: ts) 0).
    destruct (IH x (r_solver (evolve s u (Some x))) (r_sol (evolve s u (Some x))) V' R') with (j := j) as (I1 & I2);
      try (rewrite D'); try assumption; [cbn in Hj; lia|].
    split; [exact (agree_trans _ _ _ _ A I1)|exact I2].
Qed.
(** Single steps *)
Lemma ones_keep : forall n s u, dt_variable s = false -> ready need s ->
  many_err (many evolve s u (repeat None n)) = None -> agree s (fst (fst (many evolve s u (repeat None n)))).
Proof.
  induction n as [|n IH]; intros s u V R He; cbn [repeat many] in *; [apply agree_refl; assumption|].
  destruct (r_err (evolve s u None)) as [e|] eqn:EE; [discriminate He|].
  pose proof (evolve_keeps_one stepf before need frame Hdt s u V R EE) as A. destruct (agree_parts _ _ A) as (V' & R' & D').
  exact (agree_trans _ _ _ _ A (IH _ _ V' R' He)).
Qed.
Lemma concat_repeat_none k n : concat (repeat (repeat (@None Q) k) n) = repeat None (n * k).
Proof. induction n as [|n IH]; [reflexivity|]. cbn [repeat concat]. rewrite IH, <- repeat_app. reflexivity. Qed.
Lemma concat_ones (ts : list Q) : concat (map (fun t => [Some t]) ts) = map Some ts.
Proof. induction ts as [|t ts IH]; [reflexivity|]. cbn [map concat app]. rewrite IH. reflexivity. Qed.
Lemma firstn_repeat' {A} (x : A) n m : firstn m (repeat x n) = repeat x (Nat.min m n).
Proof. revert m. induction n as [|n IH]; intros [|m]; cbn; try reflexivity. f_equal. apply IH. Qed.
Lemma skipn_repeat' {A} (x : A) n m : skipn m (repeat x n) = repeat x (n - m).
Proof. revert m. induction n as [|n IH]; intros [|m]; cbn; try reflexivity. apply IH. Qed.

Lemma nth_skip {A} (l : list A) : forall n i, nth_error (skipn n l) i = nth_error l (n + i).
Proof. induction l as [|x l IH]; intros [|n] i; cbn; try reflexivity; [destruct i; reflexivity|apply IH]. Qed.

(** Equal intervals are whole numbers of steps *)
Lemma equal_steps d t0 m : (1 <= m)%Z -> 0 < d -> forall ts k,
  (forall i x, nth_error ts i = Some x -> x == t0 + inject_Z ((k + Z.of_nat i + 1) * m) * d) ->
  steps_apart d (t0 + inject_Z (k * m) * d) ts.
Proof.
  intros Hm Hd. induction ts as [|x ts IH]; intros k H; cbn [steps_apart]; [exact I|].
  pose proof (H 0%nat x eq_refl) as Hx. split.
  - exists m. split; [exact Hm|]. rewrite Hx. rewrite <- Qplus_assoc, <- Qmult_plus_distr_l, <- inject_Z_plus.
    replace ((k + Z.of_nat 0 + 1) * m)%Z with (k * m + m)%Z by lia. reflexivity.
  - assert (G : forall t ys, x == t -> steps_apart d t ys -> steps_apart d x ys).
    { clear. intros t [|y ys] E0 S; [exact I|]. destruct S as [(N & HN & Hy) S]. split; [|exact S]. exists N. split; [exact HN|].
      rewrite E0. exact Hy. }
    apply (G (t0 + inject_Z ((k + 1) * m) * d)).
    + rewrite Hx. replace (k + Z.of_nat 0 + 1)%Z with (k + 1)%Z by lia. reflexivity.
    + apply IH. intros i y Hy. rewrite (H (S i) y Hy). replace (k + Z.of_nat (S i) + 1)%Z with (k + 1 + Z.of_nat i + 1)%Z by lia. reflexivity.
Qed.

Section Two.
Context (setup : solver E -> solver E) (valid : solver E -> sol DQ DX -> bool).
Context (c c2 : controller DQ DX P F) (w w' w2 : world DQ DX E P F) (j : nat).
Hypothesis HA : acceptable c w.
Hypothesis HV : valid (first_solver setup w) (w_sol w) = true.
Hypothesis HRun : run evolve setup valid c w = (w', None).
Hypothesis AG : agree (first_solver setup w) (first_solver setup w2).
Hypothesis HFit : fits c (dt (first_solver setup w)) (st (w_sol w)).
Hypothesis HRest : rest_of j c c2.
Hypothesis HV2 : valid (first_solver setup w2) (w_sol w2) = true.
Hypothesis HO2 : c_output c2 = true -> w_dir w2 = true -> c_overwrite c2 = true.
Hypothesis HStart : w_start w2 = (w_start w + Z.of_nat j)%Z.
Notation s0 := (first_solver setup w).
Notation s2 := (first_solver setup w2).

(** The solver and the time at frame j, and the calls that are left *)
Lemma at_frame blocks : requested c (w_start w) (st (w_sol w)) blocks -> (j < length blocks)%nat ->
  many_err (reached evolve s0 (w_sol w) blocks j) = None ->
  agree s0 (fst (fst (reached evolve s0 (w_sol w) blocks j))) /\ acceptable c2 w2 /\
  forall blocks2, st (w_sol w2) = st (many_sol (reached evolve s0 (w_sol w) blocks j)) ->
    requested c2 (w_start w2) (st (w_sol w2)) blocks2 -> Forall2 (Forall2 same_time) (skipn j blocks) blocks2.
Proof.
  intros Rq Hj Er. destruct (agree_parts _ _ AG) as (V2 & R2 & D2).
  assert (V : dt_variable s0 = false) by apply AG. assert (R : ready need s0) by apply AG.
  destruct HRest as [Rs Ro Ra Rp RF Rt]. destruct HFit as (Fc & Fd & Ff).
  unfold acceptable. rewrite Rs. unfold requested in Rq. unfold requested. rewrite Rs.
  destruct HA as [[(S1 & N1)|[(S1 & N1)|(S1 & N1)]] _]; rewrite S1 in *.
  - destruct Rq as (ts & -> & Ln & Tm). destruct Rt as (Rt1 & Rt2). destruct Ff as ((m & Hm & Htf) & He).
    rewrite map_length in Hj. unfold reached in Er |- *. rewrite firstn_map, concat_ones in Er |- *.
    assert (T0 : 0 < tol10) by (unfold tol10; lra).
    assert (NP : 0 < inject_Z (c_num c)) by (change 0 with (inject_Z 0); rewrite <- Zlt_Qlt; lia).
    assert (Tm' : forall i x, nth_error ts i = Some x -> x == st (w_sol w) + inject_Z ((0 + Z.of_nat i + 1) * m) * dt s0).
    { intros i x Hx. rewrite (Tm i x Hx), Htf. rewrite Z.add_0_l, !inject_Z_mult. field. lra. }
    assert (SA : steps_apart (dt s0) (st (w_sol w)) ts).
    { pose proof (equal_steps (dt s0) (st (w_sol w)) m Hm ltac:(lra) ts 0 Tm') as K. clear - K. destruct ts as [|x ts]; [exact I|].
      destruct K as [(N & HN & Hx) K]. split; [|exact K]. exists N. split; [exact HN|]. rewrite Hx. rewrite Z.mul_0_l. change (inject_Z 0) with 0. ring. }
    assert (SE : Forall (fun x => eps14 * x <= dt s0) ts).
    { apply Forall_forall. intros x Hx. destruct (In_nth_error _ _ Hx) as (i & Hi).
      assert (L : x <= c_tfinal c).
      { rewrite (Tm' i x Hi), Htf. apply Qplus_le_r. apply Qmult_le_compat_r; [|lra]. apply inject_Z_le.
        assert ((i < length ts)%nat) by (apply nth_error_Some; congruence). nia. }
      assert (0 < eps14) by (unfold eps14; lra). assert (eps14 * x <= eps14 * c_tfinal c) by nra. lra. }
    destruct (times_keep ts (st (w_sol w)) s0 (w_sol w) V R Fc Fd (Qeq_refl _) SA SE j ltac:(lia) Er) as (K1 & K2).
    split; [exact K1|]. split; [split; [left; split; [reflexivity|lia]|exact HO2]|].
    intros blocks2 E2 (ts2 & -> & Ln2 & Tm2). rewrite skipn_map.
    assert (Tj : st (w_sol w2) == st (w_sol w) + (c_tfinal c - st (w_sol w)) * inject_Z (Z.of_nat j) / inject_Z (c_num c)).
    { rewrite E2, K2. destruct j as [|j']; [cbn [nth]; change (inject_Z (Z.of_nat 0)) with 0; field; lra|]. cbn [nth].
      rewrite (Tm j' (nth j' ts 0)) by (apply nth_error_nth'; lia). replace (Z.of_nat j' + 1)%Z with (Z.of_nat (S j')) by lia. reflexivity. }
    assert (L2 : length (skipn j ts) = length ts2) by (rewrite skipn_length; lia).
    assert (NJ : 0 < inject_Z (c_num c - Z.of_nat j)) by (change 0 with (inject_Z 0); rewrite <- Zlt_Qlt; lia).
    assert (G : forall i x y, nth_error (skipn j ts) i = Some x -> nth_error ts2 i = Some y -> x == y).
    { intros i x y Hx Hy. rewrite nth_skip in Hx.
      rewrite (Tm _ _ Hx), (Tm2 _ _ Hy), Tj, Rt1, Rt2. rewrite Nat2Z.inj_add.
      unfold Z.sub in *. rewrite !inject_Z_plus, inject_Z_opp in *. change (inject_Z 1) with 1. field. split; lra. }
    clear - L2 G. revert ts2 L2 G. induction (skipn j ts) as [|x l IH]; intros [|y l2] L G; try discriminate L; [constructor|].
    cbn [map]. constructor; [constructor; [exact (G 0%nat x y eq_refl eq_refl)|constructor]|].
    apply IH; [injection L as L; exact L|]. intros i a b Ha Hb. exact (G (S i) a b Ha Hb).
  - subst blocks. destruct Rt as (Rt1 & Rt2). destruct Ff as (SA & SE). set (ts := tl (c_times c)) in *.
    rewrite map_length in Hj. unfold reached in Er |- *. rewrite firstn_map, concat_ones in Er |- *.
    destruct (times_keep ts (st (w_sol w)) s0 (w_sol w) V R Fc Fd (Qeq_refl _) SA SE j ltac:(lia) Er) as (K1 & K2).
    split; [exact K1|]. split; [split; [right; left; split; [reflexivity|exact Rt1]|exact HO2]|].
    intros blocks2 E2 ->. rewrite Rt2, skipn_map. clear. induction (skipn j ts) as [|x l IH]; cbn [map]; [constructor|].
    constructor; [constructor; [reflexivity|constructor]|exact IH].
  - subst blocks. destruct Rt as (Rt1 & Rt2). rewrite repeat_length in Hj. unfold reached in Er |- *.
    rewrite firstn_repeat', concat_repeat_none in Er |- *. split; [apply ones_keep; assumption|].
    split; [split; [right; right; split; [reflexivity|lia]|exact HO2]|]. intros blocks2 _ ->.
    rewrite skipn_repeat', Rt1, Rt2, HStart. replace (Z.to_nat (c_num c - (w_start w + Z.of_nat j))) with (Z.to_nat (c_num c - w_start w) - j)%nat by lia.
    clear. induction (_ - j)%nat as [|n IH]; cbn [repeat]; constructor; [|exact IH]. clear. induction (Z.to_nat (c_nstepout c)); cbn [repeat]; constructor; [exact I|assumption].
Qed.
Lemma all_blocks blocks : requested c (w_start w) (st (w_sol w)) blocks -> concat blocks <> [] -> Forall (fun b => b <> []) blocks.
Proof.
  unfold requested. intros Rq Hne. destruct HA as [[(S1 & N1)|[(S1 & N1)|(S1 & N1)]] _]; rewrite S1 in Rq.
  - destruct Rq as (ts & -> & _). apply Forall_forall. intros b Hb. apply in_map_iff in Hb. destruct Hb as (x & <- & _). discriminate.
  - subst blocks. apply Forall_forall. intros b Hb. apply in_map_iff in Hb. destruct Hb as (x & <- & _). discriminate.
  - subst blocks. apply Forall_forall. intros b Hb. apply repeat_spec in Hb. subst b. intros K. rewrite K in Hne. apply Hne.
    clear. induction (Z.to_nat _) as [|n IH]; [reflexivity|exact IH].
Qed.
Lemma firstn_add {A} (l : list A) : forall n m, firstn (n + m) l = firstn n l ++ firstn m (skipn n l).
Proof. induction l as [|x l IH]; intros [|n] m; cbn [Nat.add firstn skipn app]; try reflexivity; [destruct m; reflexivity|rewrite IH; reflexivity]. Qed.
Lemma concat_forall2 (a b : list (list (option Q))) : Forall2 (Forall2 same_time) a b -> Forall2 same_time (concat a) (concat b).
Proof. induction 1 as [|x y l m H _ IH]; cbn [concat]; [constructor|]. apply Forall2_app; assumption. Qed.
Lemma firstn_forall2 {A B} (R : A -> B -> Prop) l m : Forall2 R l m -> forall n, Forall2 R (firstn n l) (firstn n m).
Proof. induction 1 as [|x y l m H _ IH]; intros [|n]; cbn [firstn]; constructor; [exact H|apply IH]. Qed.
Lemma forall2_len {A B} (R : A -> B -> Prop) l m : Forall2 R l m -> length l = length m.
Proof. induction 1; cbn [length]; congruence. Qed.

Lemma restart_run : exists us,
  w_out w' = w_out w ++ run_files c (w_start w) (w_sol w) us /\
  ((j < length us)%nat -> w_sol w2 = nth j (w_sol w :: us) (w_sol w) ->
   exists w2', run evolve setup valid c2 w2 = (w2', None) /\ w_sol w2' = w_sol w' /\
     w_out w2' = w_out w2 ++ run_files c2 (w_start w2) (w_sol w2) (skipn j us)).
Proof.
  destruct (run_spec evolve setup valid c w w' None HA HV HRun) as (blocks & k & Q1 & _ & Q3 & Q4 & _ & _ & Q7 & _ & Q5 & Q6 & _).
  set (go := reached evolve s0 (w_sol w) blocks) in *. exists (map (fun i => many_sol (go i)) (seq 1 k)). split; [exact Q4|].
  rewrite map_length, seq_length. intros Hj E2.
  assert (Hu : w_sol w2 = many_sol (go j)).
  { rewrite E2. destruct j as [|j']; [reflexivity|]. cbn [nth].
    rewrite (nth_indep _ (w_sol w) (many_sol (go 0%nat))) by (rewrite map_length, seq_length; lia).
    rewrite (map_nth (fun i => many_sol (go i)) (seq 1 k) 0%nat j'). rewrite seq_nth by lia. reflexivity. }
  destruct (at_frame blocks Q1 ltac:(lia) (Q3 j ltac:(lia))) as (A1 & A2 & A3). fold go in A1, A3.
  destruct (run evolve setup valid c2 w2) as [w2' o2] eqn:ER.
  destruct (run_spec evolve setup valid c2 w2 w2' o2 A2 HV2 ER) as (blocks2 & k2 & P1 & P2 & P3 & P4 & _ & _ & P7 & _ & P5).
  specialize (A3 blocks2 (f_equal st Hu) P1). pose proof (forall2_len _ _ _ A3) as LB. rewrite skipn_length in LB.
  assert (AJ : agree (fst (fst (go j))) s2).
  { destruct A1 as ((B1 & B2 & B3 & B4) & B5 & B6), AG as ((C1 & C2 & C3 & C4) & C5 & C6). repeat split; try assumption; congruence. }
  assert (K : forall i, many_sol (go (j + i)%nat) = many_sol (reached evolve s2 (w_sol w2) blocks2 i) /\
                        many_err (go (j + i)%nat) = many_err (reached evolve s2 (w_sol w2) blocks2 i)).
  { intros i. unfold go, reached. rewrite firstn_add, concat_app, many_app.
    pose proof (Q3 j ltac:(lia)) as Ej. unfold go, reached in Ej, Hu, AJ.
    destruct (many evolve s0 (w_sol w) (concat (firstn j blocks))) as [[sj uj] ej]. cbn [many_err many_sol fst snd] in *. subst ej uj.
    apply (many_agree stepf before need frame Hstep _ _ (concat_forall2 _ _ (firstn_forall2 _ _ _ A3 i))). exact AJ. }
  assert (FR : map (fun i => many_sol (reached evolve s2 (w_sol w2) blocks2 i)) (seq 1 (k - j)) = skipn j (map (fun i => many_sol (go i)) (seq 1 k))).
  { replace k with (j + (k - j))%nat at 2 by lia. rewrite seq_app, map_app. rewrite skipn_app, map_length, seq_length, Nat.sub_diag. cbn [skipn].
    rewrite skipn_all2 by (rewrite map_length, seq_length; lia). cbn [app].
    assert (G : forall n a, map (fun i => many_sol (reached evolve s2 (w_sol w2) blocks2 i)) (seq a n) = map (fun i => many_sol (go i)) (seq (j + a) n)).
    { clear - K. induction n as [|n IH]; intros a; cbn [seq map]; [reflexivity|]. f_equal; [symmetry; apply (K a)|].
      replace (S (j + a)) with (j + S a)%nat by lia. apply IH. }
    rewrite G. replace (j + 1)%nat with (1 + j)%nat by lia. reflexivity. }
  destruct o2 as [e|].
  - exfalso. destruct e; try contradiction.
    + destruct P5 as (-> & P5 & _). pose proof (all_blocks blocks Q1 Q6) as AB.
      assert (N2 : skipn j blocks <> []) by (intros Z; apply (f_equal (@length _)) in Z; rewrite skipn_length in Z; cbn in Z; lia).
      assert (AB2 : Forall (fun b => b <> []) (skipn j blocks)).
      { rewrite Forall_forall in AB |- *. intros b Hb. apply AB. rewrite <- (firstn_skipn j blocks). apply in_app_iff. right. exact Hb. }
      destruct A3 as [|x y l m X _]; [apply N2; reflexivity|]. apply Forall_inv in AB2. destruct X; [apply AB2; reflexivity|discriminate P5].
    + destruct P5 as (L & P5 & _). destruct (K (S k2)) as (_ & K2). rewrite <- K2, (Q3 (j + S k2)%nat ltac:(lia)) in P5. discriminate P5.
  - exists w2'. split; [reflexivity|]. destruct P5 as (-> & _). replace (length blocks2) with (k - j)%nat in * by lia. split.
    + rewrite P7, Q7, <- (proj1 (K (S (k - j)))). f_equal. f_equal. lia.
    + rewrite P4, FR. reflexivity.
Qed.
End Two.
End Run.
