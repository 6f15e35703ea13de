(** A run of SSPLMMk3 keeps a convex invariant set that forward Euler keeps, as long as the saved steps are short
    compared with the forward-Euler steps. *)
From Verif Require Import Base TimeModel SharpModel SharpSpec SharpProofs MultiModel MultiSpec MultiProofs MultiProofs2 MultiProofs3.

Section Run3.
Variable Idx DX : Type.
Notation V := (Idx -> Q).
Notation zz := ((fun _ : Idx => 0, 0) : V * Q).
Variable f : Q -> V -> V.
Variable speed : Q -> V -> Q.
Variable hook : Q -> V -> V.
Variable k : nat.
Notation check := false.
Variable before : sol V DX -> DX.
Variable K : V -> Prop.
Variable cm cd : Q.
Notation I := SSPLMMk3.
Notation sc := (sspcoeff I (Z.of_nat k)).
Notation C := (cm / sspcoeff I (Z.of_nat k)).

Hypothesis Hk : (4 <= k)%nat.
Hypothesis Hcm : 0 < cm.
Hypothesis Hcd : 0 < cd.
Hypothesis Hspeed : forall t q, 0 < speed t q.
Hypothesis Kconv : convex K.
Hypothesis Khook : forall t q, K q -> K (hook t q).
Hypothesis Keuler : forall d t q, 0 <= d -> d * speed t q <= C -> K q -> K (fun i => q i + d * f t q i).

Notation step := (multi_step f speed hook I (Z.of_nat k) check [] []).
Notation accept := (multi_accept I (Z.of_nat k)).
Notation "'slp'" := (slope f).
Definition spd (p : V * Q) : Q := speed (snd p) (fst p).

Lemma sc_pos : 0 < sc.
Proof. unfold sspcoeff. apply Qdiv_pos; change 0 with (inject_Z 0); apply inject_Z_lt; lia. Qed.
Lemma ratio_C : ratio I (Z.of_nat k) * cm == C.
Proof. unfold ratio. cbn [is_ssp]. pose proof sc_pos. field. lra. Qed.

Definition fe_ok (P : list (V * Q)) (l : list Q) : Prop := Forall2 (fun x p => x == C / spd p) l (lastn k P).

Definition extra (sols : list (V * Q)) (s : solver (hist Idx)) : Prop :=
  0 < dt s /\ cfl_max s = cm /\ cfl_desired s = cd
  /\ fe_ok (if accept_step s then removelast sols else sols) (h_dtFEs (ext s))
  /\ Forall (fun x => 0 < x) (diffs (map snd sols))
  /\ (short_spans speed C k sols -> Forall (fun p => K (fst p)) sols)
  /\ (dt_old s = None -> length sols = 1%nat)
  /\ (accept_step s = false -> (length sols < k)%nat /\ dt s * spd (last sols zz) <= cfl s).

Lemma fe_push P x l : fe_ok P l -> (0 < length P)%nat ->
  fe_ok (P ++ [x]) (if Z.leb (Z.of_nat (S (length P))) (Z.of_nat k) then l ++ [C / spd x] else roll l (C / spd x)).
Proof.
  intros F HP. unfold fe_ok in *. pose proof (Forall2_len _ _ _ F) as L. rewrite lastn_length in L.
  destruct (Z.leb_spec (Z.of_nat (S (length P))) (Z.of_nat k)).
  - rewrite lastn_snoc_lt by lia. apply Forall2_app; auto. repeat constructor; reflexivity.
  - rewrite lastn_snoc_ge by lia. unfold roll. apply Forall2_app; [destruct F; simpl; auto|]. repeat constructor; reflexivity.
Qed.
Lemma fe_replace P l a b : a == b -> fe_ok P (l ++ [a]) -> fe_ok P (l ++ [b]).
Proof.
  intros E F. unfold fe_ok in *. revert l F. generalize (lastn k P) as m.
  induction m as [|p m IH]; intros l F; [apply Forall2_len in F; rewrite app_length in F; simpl in F; lia|].
  destruct l as [|y l].
  - simpl in *. inversion F; subst. inversion H4; subst. constructor; auto. rewrite <- E. auto.
  - simpl in *. inversion F; subst. constructor; auto.
Qed.

Lemma nth_back (sols : list (V * Q)) j : (k <= length sols)%nat -> nth j (lastn k sols) zz = nth_of_last k sols j.
Proof. intros H. apply nth_lastn. exact H. Qed.
Lemma Forall2_nth_lr {A B} (R : A -> B -> Prop) l m a b j : Forall2 R l m -> (j < length l)%nat -> R (nth j l a) (nth j m b).
Proof. intros F. revert j. induction F as [|x y l m H F IH]; intros j Hj; cbn in *; [lia|]. destruct j; [exact H|]. apply IH. lia. Qed.

Lemma ssplmm_facts sols h : saved Idx f I k sols h -> fe_ok sols (h_dtFEs h) ->
  Forall (fun x => 0 < x) (diffs (map snd sols)) -> (k <= length sols)%nat ->
  exists mu, 0 < mu /\ (forall j, (j < k)%nat -> mu <= C / spd (nth_of_last k sols j))
        /\ (exists j, (j < k)%nat /\ mu == C / spd (nth_of_last k sols j))
        /\ exists H, 0 < H /\ H == snd (last sols zz) - snd (nth_of_last k sols 0)
        /\ ssplmm_dt 3 (h_dts h) (h_dtFEs h) = H * mu / (H + (3 - 1) * mu).
Proof.
  intros Sv Fe Inc Hge. pose proof sc_pos as Hsc.
  pose proof (Forall2_len _ _ _ Fe) as Lf. rewrite lastn_length in Lf.
  destruct Sv as (_ & _ & _ & _ & Hd). destruct (Hd eq_refl) as [Ld Fd].
  unfold ssplmm_dt. destruct (h_dtFEs h) as [|x l] eqn:El; [simpl in Lf; lia|].
  destruct (qminimum_spec x l) as [Mle Min].
  exists (qminimum x l).
  assert (Hsne : sols <> []) by (destruct sols; simpl in *; [lia|discriminate]).
  split; [|split; [|split]].
  - destruct (Forall2_in_l _ _ _ _ Fe Min) as (p & Ep). rewrite Ep. apply Qdiv_pos; [|apply Hspeed].
    apply Qdiv_pos; auto.
  - intros j Hj. rewrite <- (nth_back sols j Hge).
    pose proof (Forall2_nth_lr _ _ _ 0 zz j Fe ltac:(rewrite Lf; lia)) as En. cbv beta in En.
    rewrite Forall_forall in Mle. specialize (Mle (nth j (x :: l) 0) ltac:(apply nth_In; rewrite Lf; lia)). lra.
  - destruct (In_nth _ _ 0 Min) as (j & Hj & Ej). exists j. split; [lia|]. rewrite <- (nth_back sols j Hge).
    pose proof (Forall2_nth_lr _ _ _ 0 zz j Fe Hj) as En. cbv beta in En. rewrite Ej in En. exact En.
  - exists (qsum (tl (h_dts h))). split; [|split; [|reflexivity]].
    + rewrite (qsum_eq _ _ Fd). apply qsum_pos.
      * intros E. apply (f_equal (@length Q)) in E. rewrite diffs_length, lastn_length, map_length in E. simpl in E. lia.
      * unfold lastn. rewrite diffs_skipn. apply Forall_skipn. auto.
    + rewrite (qsum_eq _ _ Fd). rewrite qsum_diffs.
      * rewrite last_lastn by lia. rewrite (last_map snd sols zz) by auto.
        rewrite nth_lastn by (rewrite map_length; auto). rewrite map_length. rewrite (map_nth' snd _ zz) by lia. reflexivity.
      * intros E. apply (f_equal (@length Q)) in E. rewrite lastn_length, map_length in E. simpl in E. lia.
Qed.

Lemma k3_step_facts tstart sols s so s' q' : hinv Idx DX f I k true sols s so -> extra sols s ->
  step tstart None s so = (s', mkSol q' (sx so) (st so)) -> after Idx f I k true sols s' ->
  0 < dt s' /\ cfl_max s' = cm /\ cfl_desired s' = cd /\ fe_ok sols (h_dtFEs (ext s'))
  /\ dt_old s' <> None
  /\ ((length sols < k)%nat -> dt s' * spd (last sols zz) <= cfl s'
        /\ dt s' * ssp22_speed speed hook (dt s') (slp (last sols zz)) (st so) (sq so) <= cfl s')
  /\ ((k <= length sols)%nat -> exists mu, 0 < mu /\ (forall j, (j < k)%nat -> mu <= C / spd (nth_of_last k sols j))
        /\ (exists j, (j < k)%nat /\ mu == C / spd (nth_of_last k sols j))
        /\ exists H, 0 < H /\ H == snd (last sols zz) - snd (nth_of_last k sols 0)
        /\ dt s' == H * mu / (H + (3 - 1) * mu)).
Proof.
  intros Hh He Hs Haft.
  assert (Hsc := sc_pos).
  set (s1 := if accept_step s
             then set_ext (mkHist (h_regs (ext s)) (h_fs (ext s)) (h_dts (ext s)) (h_dtFEs (ext s))
                             (f (st so) (sq so)) (h_lmm_cond (ext s)))
                    (set_cfl (pymax 0 (dt s * speed (st so) (sq so))) s)
             else s).
  destruct Hh as (Hne & Hl & Hn & Hv & Hsv & Hd & Hq).
  destruct He as (Pdt & Ecm & Ecd & Hfe & Hinc & HK & Hdo & Hrej).
  assert (Esp : spd (last sols zz) = speed (st so) (sq so)) by (rewrite Hl; reflexivity).
  assert (Psp : 0 < spd (last sols zz)) by apply Hspeed.
  (* the Courant number after line 293 *)
  assert (C1 : dt s1 * spd (last sols zz) <= cfl s1 /\ (accept_step s = true -> cfl s1 == dt s1 * spd (last sols zz))).
  { unfold s1. destruct (accept_step s) eqn:Ea.
    - change (cfl (set_ext _ _)) with (pymax 0 (dt s * speed (st so) (sq so))).
      change (dt (set_ext _ _)) with (dt s). rewrite Esp. rewrite Esp in Psp.
      assert (0 < dt s * speed (st so) (sq so)) by (apply Qmul_pos; auto).
      destruct (pymax_spec 0 (dt s * speed (st so) (sq so))) as (P1 & P2 & [P3 | P3]); rewrite P3 in *; split; intros; lra.
    - split; [apply Hrej; auto|discriminate]. }
  destruct C1 as [C1 C1e].
  assert (E1 : dt s1 = dt s /\ dt_old s1 = dt_old s /\ cfl_max s1 = cm /\ cfl_desired s1 = cd /\ accept_step s1 = accept_step s
     /\ h_dts (ext s1) = h_dts (ext s) /\ h_dtFEs (ext s1) = h_dtFEs (ext s) /\ h_regs (ext s1) = h_regs (ext s)
     /\ dt_variable s1 = true /\ st_numsteps s1 = st_numsteps s).
  { unfold s1. destruct (accept_step s) eqn:Ea; repeat split; auto. }
  destruct E1 as (D1 & O1 & M1 & W1 & A1 & T1 & F1 & R1 & V1 & N1).
  assert (C1p : 0 < cfl s1).
  { assert (0 < dt s1 * spd (last sols zz)) by (rewrite D1; apply Qmul_pos; auto). lra. }
  unfold multi_step in Hs. fold s1 in Hs.
  destruct (update_saved_values I (Z.of_nat k) check s1 so (st_numsteps s + 1)) as [[s2 so2] i2] eqn:Eu.
  destruct (update_other Idx DX I (Z.of_nat k) check s1 so _ s2 so2 i2 eq_refl Eu)
    as (D2 & C2 & O2 & M2 & W2 & X2 & V2 & A2 & F2).
  cbn [is_ssp] in Hs, F2.
  (* the saved forward-Euler steps *)
  assert (Lr : length (h_regs (ext s)) = k) by apply Hsv.
  assert (Now : accept_step s = true -> dtFE_now I (Z.of_nat k) s1 == C / spd (last sols zz)).
  { intros Ea. unfold dtFE_now. rewrite M1. rewrite (C1e Ea), D1. field. repeat split; lra. }
  assert (FE2 : fe_ok sols (h_dtFEs (ext s2))).
  { rewrite F2, T1, F1, R1, A1, Lr. destruct Hsv as (_ & _ & Hdts & _ & _).
    destruct (h_dts (ext s)) as [|d0 dts] eqn:Ed.
    - assert (EP : (if accept_step s then removelast sols else sols) = []) by (apply Hdts; reflexivity).
      destruct (accept_step s) eqn:Ea; [|congruence]. rewrite EP in Hfe. unfold fe_ok in Hfe. inversion Hfe.
      assert (Es : sols = [last sols zz]).
      { rewrite (app_removelast_last zz Hne) at 1. rewrite EP. reflexivity. }
      rewrite Es. unfold fe_ok. rewrite lastn_short by (simpl; lia). simpl. repeat constructor. rewrite Now by auto. reflexivity.
    - destruct (accept_step s) eqn:Ea; [|exact Hfe].
      assert (HP : removelast sols <> []) by (intros E; apply Hdts in E; discriminate).
      assert (Es : sols = removelast sols ++ [last sols zz]) by (apply app_removelast_last; auto).
      pose proof (fe_push (removelast sols) (last sols zz) _ Hfe ltac:(destruct (removelast sols); [congruence|simpl; lia])) as F.
      rewrite <- Es in F.
      replace (Z.of_nat (S (length (removelast sols)))) with (st_numsteps s + 1)%Z in F
        by (rewrite Hn; rewrite Es at 1; rewrite app_length; simpl; lia).
      destruct (Z.leb (st_numsteps s + 1) (Z.of_nat k)).
      + eapply fe_replace; [|exact F]. symmetry. apply Now; auto.
      + unfold roll in *. eapply fe_replace; [|exact F]. symmetry. apply Now; auto. }
  (* the step size *)
  set (s3 := get_dt (multi_get_dt_new I (Z.of_nat k) check) (st so2) tstart None s2) in *.
  pose proof (get_dt_keeps Idx I k check [] [] true (or_introl (conj eq_refl eq_refl)) eq_refl (st so2) tstart None s2) as (Kn & Kv & Ke & Ka). fold s3 in Kn, Kv, Ke, Ka.
  assert (N2 : st_numsteps s2 = st_numsteps s /\ so2 = so /\ i2 = Z.of_nat (length sols)
               /\ length (h_regs (ext s2)) = k /\ saved Idx f I k sols (ext s2) /\ h_dqdt (ext s2) = slp (last sols zz)).
  { assert (H1 : hinv Idx DX f I k true sols s1 so).
    { unfold s1. destruct (accept_step s) eqn:Ea.
      - unfold hinv. change (accept_step (set_ext _ (set_cfl _ s))) with (accept_step s). rewrite Ea in *.
        split; [exact Hne|]. split; [exact Hl|]. split; [exact Hn|]. split; [exact Hv|]. split; [exact Hsv|].
        split; [exact Hd|discriminate].
      - unfold hinv. rewrite Ea in *. tauto. }
    assert (Hdq1 : h_dqdt (ext s1) = slp (here Idx DX so)).
    { unfold s1. destruct (accept_step s) eqn:Ea; [reflexivity|]. rewrite (Hq eq_refl), Hl. reflexivity. }
    destruct (update_ready Idx DX f I k check [] [] true ltac:(left; split; reflexivity) ltac:(lia) eq_refl sols s1 so H1 Hdq1)
      as (s2' & E2' & R2' & _).
    rewrite N1, Eu in E2'. injection E2' as <- <- <-. destruct R2' as (Q1 & Q2 & Q3 & Q4).
    split; [rewrite Q1, Hn; reflexivity|]. repeat split; auto; apply Q3; auto. }
  destruct N2 as (N2 & -> & -> & Lr2 & Sv2 & Dq2).
  assert (Facts : 0 < dt s3 /\ cfl_max s3 = cm /\ cfl_desired s3 = cd /\ dt_old s3 = Some (dt s) /\ cfl s3 = cfl s2
    /\ ((k <= length sols)%nat -> dt s3 == ssplmm_dt 3 (h_dts (ext s2)) (h_dtFEs (ext s2)))).
  { unfold s3, get_dt, get_dt_clip, get_dt_choose. rewrite V2, V1, O2, O1.
    destruct (dt_old s) as [dold|] eqn:Edo.
    - cbn [andb]. replace (qltb 0 (cfl s2)) with true by (symmetry; apply qltb_lt; rewrite C2; auto).
      cbv zeta. unfold multi_get_dt_new. cbn [is_ssp is_k3 andb]. rewrite N2, Hn, Lr2.
      replace (Z.of_nat (length sols) - 1 + 1)%Z with (Z.of_nat (length sols)) by lia.
      destruct (Z.ltb_spec (Z.of_nat (length sols)) (Z.of_nat k)) as [Hlt|Hge].
      + assert (PR : 0 < ratio I (Z.of_nat k)) by (unfold ratio; cbn [is_ssp]; apply Qdiv_pos; lra).
        split.
        { cbn [dt set_st_dt set_dt]. rewrite Qred_correct. apply Qdiv_pos; [|rewrite C2; auto].
          rewrite W2, W1, D2, D1. apply Qmul_pos; auto. apply Qmul_pos; auto. }
        split; [cbn; rewrite M2; auto|]. split; [cbn; rewrite W2; auto|]. split; [cbn; rewrite D2, D1; reflexivity|].
        split; [reflexivity|]. lia.
      + assert (Ea : accept_step s2 = true).
        { rewrite A2, A1. destruct (accept_step s) eqn:Ea; auto. destruct (Hrej eq_refl). lia. }
        rewrite Ea. split; [|split; [cbn; rewrite M2; auto|split; [cbn; rewrite W2; auto|split; [cbn; rewrite D2, D1; reflexivity|split; [reflexivity|]]]]].
        2:{ intros _. cbn [dt set_st_dt set_dt]. apply Qred_correct. }
        cbn [dt set_st_dt set_dt]. rewrite Qred_correct.
        destruct (ssplmm_facts sols (ext s2) Sv2 FE2 Hinc ltac:(lia)) as (mu & M0 & _ & _ & H & H0 & _ & ->).
        apply (auto_step 3 H mu); auto; lra.
    - cbn [andb]. specialize (Hdo eq_refl).
      split; [cbn; rewrite D2, D1; auto|]. split; [cbn; rewrite M2; auto|]. split; [cbn; rewrite W2; auto|].
      split; [cbn; rewrite D2, D1; reflexivity|]. split; [reflexivity|]. lia. }
  destruct Facts as (P3 & M3 & W3 & O3 & C3 & L3). rewrite O3 in Hs.
  assert (CC : dt s3 * spd (last sols zz) <= dt s3 / dt s * cfl s3).
  { rewrite C3, C2. rewrite D1 in C1.
    assert (E : dt s3 * spd (last sols zz) == dt s3 / dt s * (dt s * spd (last sols zz))) by (field; lra).
    rewrite E. apply Qmult_le_l; [apply Qdiv_pos; auto | exact C1]. }
  assert (Dq3 : h_dqdt (ext s3) = slp (last sols zz)) by (rewrite Ke; exact Dq2).
  destruct (Z.ltb_spec (Z.of_nat (length sols)) (Z.of_nat k)) as [Hlt|Hge].
  - injection Hs as <- <-. split; [exact P3|]. split; [exact M3|]. split; [exact W3|].
    split; [change (fe_ok sols (h_dtFEs (ext s3))); rewrite Ke; exact FE2|]. split; [discriminate|]. split; [|lia].
    intros _. cbn [set_cfl set_ext set_dt_old dt cfl ext h_dqdt].
    destruct (pymax_spec (dt s3 / dt s * cfl s3)
      (dt s3 * ssp22_speed speed hook (dt s3) (h_dqdt (ext s3)) (st so) (sq so))) as (P & P' & _).
    split; [eapply Qle_trans; [exact CC|exact P]|]. rewrite Dq3 in *. exact P'.
  - injection Hs as <- <-. split; [exact P3|]. split; [exact M3|]. split; [exact W3|].
    split; [change (fe_ok sols (h_dtFEs (ext s3))); rewrite Ke; exact FE2|]. split; [discriminate|]. split; [lia|].
    intros Hle. destruct (ssplmm_facts sols (ext s2) Sv2 FE2 Hinc Hle) as (mu & M0 & M1' & M2' & H & H0 & H1 & E).
    exists mu. split; auto. split; auto. split; auto. exists H. split; auto. split; auto.
    change (dt (set_dt_old _ _)) with (dt s3). rewrite (L3 Hle), E. reflexivity.
Qed.

Lemma ssp22_keeps d t q : 0 <= d -> d * speed t q <= C -> d * ssp22_speed speed hook d (f t q) t q <= C -> K q ->
  K (ssp22 f hook d (f t q) t q).
Proof.
  intros A B B' HK. unfold ssp22. cbv zeta. unfold ssp22_speed in B'.
  assert (R : K (hook (t + d) (vadd q (vscale d (f t q))))).
  { apply Khook. apply (K_eq Idx K Kconv (fun i => q i + d * f t q i)); [intros i; reflexivity | apply Keuler; auto]. }
  set (r := hook _ _) in *.
  apply (K_comb Idx K Kconv (1 # 2) (1 # 2) q (fun i => r i + d * f (t + d) r i)); auto; try lra.
  intros i. cbv [vadd vscale dq]. ring.
Qed.

Lemma last_nth {A} (l : list A) d : last l d = nth (length l - 1) l d.
Proof.
  induction l as [|x [|y l] IH]; [reflexivity|reflexivity|]. change (last (x :: y :: l) d) with (last (y :: l) d). rewrite IH.
  cbn [length]. replace (S (S (length l)) - 1)%nat with (S (S (length l) - 1)) by lia. reflexivity.
Qed.
Lemma short_snoc sols x : short_spans speed C k (sols ++ [x]) ->
  short_spans speed C k sols /\ ((k <= length sols)%nat -> short_span speed C k sols).
Proof.
  intros H. split.
  - intros n Hn. specialize (H n). rewrite app_length in H. cbn [length] in H. specialize (H ltac:(lia)).
    rewrite firstn_app in H. replace (n - length sols)%nat with 0%nat in H by lia. cbn [firstn] in H. rewrite app_nil_r in H. exact H.
  - intros Hk'. specialize (H (length sols)). rewrite app_length in H. cbn [length] in H. specialize (H ltac:(lia)).
    rewrite firstn_app, Nat.sub_diag, firstn_all in H. cbn [firstn] in H. rewrite app_nil_r in H. exact H.
Qed.

Variable so0 : sol V DX.
Definition inv3 (tr : list (event V DX)) (s : solver (hist Idx)) (so : sol V DX) : Prop :=
  inv Idx DX f hook I k [] [] true so0 tr s so /\ extra (solutions so0 tr) s.
Notation att := (attempt step accept (fun so => (sq so, before so))).

Lemma Hmode3 : (is_ssp I = true /\ true = true) \/ (I = LMM /\ length (@nil Q) = k /\ length (@nil Q) = k).
Proof. left; auto. Qed.

Lemma attempt3 tstart n tr s so s' so' ev e : inv3 tr s so ->
  att tstart None n s so = (s', so', ev, e) -> inv3 (tr ++ [ev]) s' so' /\ e = None.
Proof.
  intros [Hi He] E. pose proof Hi as [Hall Hh].
  destruct (attempt_ok Idx DX f speed hook I k check [] [] before true Hmode3 ltac:(lia) eq_refl so0
              tstart None n tr s so s' so' ev e Hi E) as [_ Hinv].
  set (sols := solutions so0 tr) in *.
  set (so1 := mkSol (sq so) (before so) (st so)).
  assert (H0 : hinv Idx DX f I k true sols s so1) by exact Hh.
  destruct (step_ok Idx DX f speed hook I k check [] [] true Hmode3 ltac:(lia) eq_refl tstart None sols s so1 H0)
    as (s1 & q' & E1 & M & Af).
  destruct (k3_step_facts tstart sols s so1 s1 q' H0 He E1 Af) as (P1 & M1 & W1 & F1 & O1 & L1 & G1).
  cbn [sx st sq so1] in *.
  assert (Hlast : last sols zz = (sq so, st so)) by apply Hh.
  assert (Hsne : sols <> []) by apply Hh.
  destruct He as (_ & _ & _ & _ & Hinc & HK & _ & _).
  assert (Hq : short_spans speed C k sols -> K (sq so)).
  { intros Hss. specialize (HK Hss). rewrite Forall_forall in HK. specialize (HK (last sols zz)). rewrite Hlast in HK. apply HK.
    rewrite <- Hlast. rewrite (app_removelast_last zz Hsne) at 2. apply in_or_app. right. left. reflexivity. }
  destruct Af as (R & D). pose proof R as (R1 & R2 & R3 & R4).
  unfold attempt in E. cbv zeta in E. cbn [fst snd] in E. change (mkSol (sq so) (before so) (st so)) with so1 in E.
  rewrite E1 in E. cbn [sx st sq so1] in E.
  assert (Lregs : length (h_regs (ext s1)) = k) by apply R3.
  unfold multi_accept in E. rewrite R1, Lregs in E.
  replace (Z.of_nat (length sols) - 1 + 1)%Z with (Z.of_nat (length sols)) in E by lia.
  assert (Acc : forall K' : Prop, (length sols < k)%nat \/ (k <= length sols)%nat).
  { intros. lia. }
  destruct (Acc True) as [Hlt|Hge]; clear Acc.
  - replace (Z.of_nat (length sols) <? Z.of_nat k)%Z with true in E by (symmetry; apply Z.ltb_lt; lia).
    destruct (L1 Hlt) as [La Lb].
    destruct (qltb (ratio I (Z.of_nat k) * cfl_max s1) (cfl s1)) eqn:Eq; cbn [negb] in E.
    + (* rejected *)
      change (TimeModel.dt_variable (set_accept_step false s1)) with (dt_variable s1) in E. rewrite R2 in E.
      injection E as <- <- <- <-. split; [|reflexivity]. split; [apply Hinv; reflexivity|].
      rewrite solutions_snoc. cbn [ev_accepted]. fold sols.
      unfold extra. change (accept_step _) with false. cbv iota.
      split; [exact P1|]. split; [exact M1|]. split; [exact W1|]. split; [exact F1|]. split; [exact Hinc|].
      split; [exact HK|]. split; [intros X; contradiction|]. intros _. split; [exact Hlt|exact La].
    + (* accepted *)
      injection E as <- <- <- <-. split; [|reflexivity]. split; [apply Hinv; reflexivity|].
      apply qltb_ge in Eq. rewrite M1, ratio_C in Eq.
      rewrite solutions_snoc. cbn [ev_accepted ev_after]. fold sols.
      unfold extra. change (accept_step _) with true. cbv iota. rewrite removelast_last.
      split; [exact P1|]. split; [exact M1|]. split; [exact W1|]. split; [exact F1|]. split; [|split; [|split; [|discriminate]]].
      * rewrite map_app. cbn [map]. rewrite diffs_snoc by (destruct sols; [congruence|discriminate]).
        apply Forall_app. split; [exact Hinc|]. constructor; [|constructor]. rewrite (last_map snd sols zz), Hlast by auto.
        cbn [here snd st]. rewrite Qred_correct. change (TimeModel.dt_variable _) with (dt_variable s1). rewrite R2.
        change (TimeModel.dt _) with (dt s1). lra.
      * intros Hss. apply short_snoc in Hss. destruct Hss as [Hss _]. specialize (HK Hss). specialize (Hq Hss).
        apply Forall_app. split; [exact HK|]. constructor; [|constructor]. cbn [here fst sq].
        unfold multistep in M. replace (Nat.ltb (length sols) k) with true in M by (symmetry; apply Nat.ltb_lt; auto).
        unfold the_last in M. rewrite Hlast in M. cbn [fst snd] in M. rewrite M. unfold slope. cbn [fst snd].
        rewrite Hlast in La, Lb. unfold slope, spd in La, Lb. cbn [fst snd] in La, Lb.
        apply ssp22_keeps; auto; lra.
      * intros X. contradiction.
  - replace (Z.of_nat (length sols) <? Z.of_nat k)%Z with false in E by (symmetry; apply Z.ltb_ge; lia).
    injection E as <- <- <- <-. split; [|reflexivity]. split; [apply Hinv; reflexivity|].
    rewrite solutions_snoc. cbn [ev_accepted ev_after]. fold sols.
    unfold extra. change (accept_step _) with true. cbv iota. rewrite removelast_last.
    split; [exact P1|]. split; [exact M1|]. split; [exact W1|]. split; [exact F1|]. split; [|split; [|split; [|discriminate]]].
    + rewrite map_app. cbn [map]. rewrite diffs_snoc by (destruct sols; [congruence|discriminate]).
      apply Forall_app. split; [exact Hinc|]. constructor; [|constructor]. rewrite (last_map snd sols zz), Hlast by auto.
      cbn [here snd st]. rewrite Qred_correct. change (TimeModel.dt_variable _) with (dt_variable s1). rewrite R2.
      change (TimeModel.dt _) with (dt s1). lra.
    + intros Hss. apply short_snoc in Hss. destruct Hss as [Hss Hlong]. specialize (HK Hss). specialize (Hq Hss).
      specialize (Hlong Hge). apply Forall_app. split; [exact HK|]. constructor; [|constructor]. cbn [here fst sq].
      unfold multistep in M. replace (Nat.ltb (length sols) k) with false in M by (symmetry; apply Nat.ltb_ge; auto).
      cbv zeta in M. unfold the_last in M.
      destruct (G1 Hge) as (mu & Mu0 & Mu1 & (jm & Hjm & Mum) & H & Hp & Eh & Ed).
      destruct (auto_step 3 H mu Hp Mu0 ltac:(lra)) as (Q1 & Q2 & Q3 & Q4). cbv zeta in Q1, Q2, Q3, Q4.
      rewrite <- Ed in Q1, Q2, Q3, Q4. assert (E21 : 3 - 1 == 2) by ring. rewrite E21 in Q3, Q4.
      assert (Eom : (snd (last sols zz) - snd (nth_of_last k sols 0)) / dt s1 == H / dt s1) by (rewrite <- Eh; reflexivity).
      assert (HB : H * H <= 8 * (mu * mu)).
      { specialize (Hlong jm Hjm). cbv zeta in Hlong. unfold the_last in Hlong. rewrite <- Eh in Hlong.
        unfold spd in Mum. rewrite Mum. exact Hlong. }
      assert (Hx : exists x, x == H / mu /\ 0 < x /\ x * x <= 8).
      { exists (H / mu). split; [reflexivity|]. split; [apply Qdiv_pos; assumption|].
        assert (E2 : (H / mu) * (H / mu) == (H * H) / (mu * mu)) by (field; lra). rewrite E2.
        apply Qle_shift_div_r; [nra|exact HB]. }
      destruct Hx as (x & Ex & Px & Bx).
      assert (Kall : forall j, (j < k)%nat -> K (fst (nth_of_last k sols j))).
      { intros j Hj. rewrite Forall_forall in HK. apply HK. unfold nth_of_last. apply nth_In. lia. }
      assert (Kmu : forall p, K (fst p) -> mu <= C / spd p -> K (fun i => fst p i + mu * slp p i)).
      { intros p Hp0 Hm. unfold slope. apply Keuler; auto; [lra|]. unfold spd in Hm.
        pose proof (Hspeed (snd p) (fst p)) as Ps.
        setoid_replace C with (C / speed (snd p) (fst p) * speed (snd p) (fst p)) by (pose proof sc_pos; field; split; lra).
        apply Qmult_le_compat_r; lra. }
      assert (Elast : last sols zz = nth_of_last k sols (k - 1)).
      { rewrite <- (nth_back sols (k - 1) Hge). rewrite <- (last_lastn k sols zz) by lia.
        rewrite last_nth. f_equal. rewrite lastn_length. lia. }
      apply (K_eq Idx K Kconv (k3_formula ((snd (last sols zz) - snd (nth_of_last k sols 0)) / dt s1) (dt s1)
               (fst (last sols zz)) (slp (last sols zz)) (fst (nth_of_last k sols 0)) (slp (nth_of_last k sols 0)))).
      { intros i. symmetry. apply M. }
      apply (k3_ssp Idx K Kconv _ _ mu).
      * rewrite Eom, Q3, <- Ex. lra.
      * rewrite Eom, Q3, <- Ex. nra.
      * rewrite Eom. exact Q4.
      * apply Kmu; [rewrite Hlast; exact Hq|]. rewrite Elast. apply Mu1. lia.
      * apply Kmu; [apply Kall; lia|]. apply Mu1. lia.
      * apply Kall. lia.
    + intros X. contradiction.
Qed.

Lemma evolve3 pre s so : inv3 pre s so ->
  let r := multi_evolve f speed hook I (Z.of_nat k) check [] [] before s so None in
  inv3 (pre ++ r_trace r) (r_solver r) (r_sol r).
Proof.
  intros H. cbv zeta. unfold multi_evolve, evolve_to_time, evolve_setup.
  assert (Hv : dt_variable s = true) by apply H. rewrite Hv. cbn [andb].
  rewrite Hv. cbn [andb]. destruct (qltb (cfl_max s) (cfl_desired s)).
  - cbn [r_trace r_solver r_sol]. rewrite app_nil_r. exact H.
  - destruct (Z.to_nat (max_steps s)) as [|m]; cbn [evolve_loop].
    + cbn [rev r_trace r_solver r_sol]. rewrite app_nil_r. exact H.
    + destruct (att (st so) None 0 s so) as [[[s1 so1] ev] e] eqn:E.
      destruct (attempt3 _ _ _ _ _ _ _ _ _ H E) as [H1 ->]. cbn [finished rev app r_trace r_solver r_sol]. exact H1.
Qed.
Lemma runs3 n : forall pre s so s' so' tr, inv3 pre s so ->
  multi_runs f speed hook I (Z.of_nat k) check [] [] before s so (repeat None n) = (s', so', tr) ->
  inv3 (pre ++ tr) s' so'.
Proof.
  induction n as [|n IH]; intros pre s so s' so' tr H E; cbn [repeat multi_runs] in E.
  - injection E as <- <- <-. rewrite app_nil_r. exact H.
  - pose proof (evolve3 pre s so H) as H1. cbv zeta in H1.
    set (r := multi_evolve f speed hook I (Z.of_nat k) check [] [] before s so None) in *.
    destruct (r_err r).
    + injection E as <- <- <-. exact H1.
    + destruct (multi_runs f speed hook I (Z.of_nat k) check [] [] before (r_solver r) (r_sol r) (repeat None n))
        as [[s1 so1] tr1] eqn:E1. injection E as <- <- <-. rewrite app_assoc. eapply IH; eauto.
Qed.
Lemma fresh3 s : accept_step s = true -> st_numsteps s = 0%Z -> dt_variable s = true ->
  length (h_regs (ext s)) = k -> h_fs (ext s) = [] -> h_dts (ext s) = [] -> h_dtFEs (ext s) = [] ->
  0 < dt s -> cfl_max s = cm -> cfl_desired s = cd -> K (sq so0) -> inv3 [] s so0.
Proof.
  intros A B C0 D E F G Pd M W HK. split.
  - apply fresh_inv; auto.
  - unfold extra. rewrite A, G. change (solutions so0 []) with [(sq so0, st so0)].
    repeat split; auto; try discriminate; constructor; auto.
Qed.
End Run3.
