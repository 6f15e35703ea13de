(** Proofs: time integrators keep linear functionals that the right-hand side annihilates. *)
From Verif Require Import Base TimeModel SharpModel SharpSpec MultiModel SemiSpec.

Section Lin.
Variable Idx : Type.
Notation V := (Idx -> Q).
Variable L : V -> Q.
Hypothesis HL : linear L.
Variable f hook : Q -> V -> V.
Hypothesis Hf : forall t u, L (f t u) == 0.
Hypothesis Hh : forall t u, L (hook t u) == L u.

Lemma Ladd u v : L (vadd u v) == L u + L v. Proof. apply HL. Qed.
Lemma Lscale a u : L (vscale a u) == a * L u. Proof. apply HL. Qed.
Lemma Ldq dt t u : L (dq f dt t u) == 0.
Proof. unfold dq. rewrite Lscale, Hf. ring. Qed.

Ltac lin := rewrite ?Ladd, ?Lscale, ?Ldq, ?Hh, ?Hf.

Lemma euler_keeps_L dt k0 t q : L k0 == 0 -> L (euler dt k0 t q) == L q.
Proof. intros H0. unfold euler. lin. rewrite H0. ring. Qed.
Lemma ssp22_keeps_L dt k0 t q : L k0 == 0 -> L (ssp22 f hook dt k0 t q) == L q.
Proof. intros H0. unfold ssp22. cbv zeta. repeat lin. rewrite H0. field. Qed.
Lemma ssp33_keeps_L dt k0 t q : L k0 == 0 -> L (ssp33 f hook dt k0 t q) == L q.
Proof. intros H0. unfold ssp33. cbv zeta. repeat lin. rewrite H0. field. Qed.
Lemma stage_keeps dt s : L (snd (ssp104_stage f hook dt s)) == L (snd s).
Proof. unfold ssp104_stage. cbn [snd]. lin. ring. Qed.
Lemma stages_keep dt n s : L (snd (iterate n (ssp104_stage f hook dt) s)) == L (snd s).
Proof. induction n; cbn [iterate]; [reflexivity|]. rewrite stage_keeps. exact IHn. Qed.
Lemma ssp104_keeps_L dt k0 t q : L k0 == 0 -> L (ssp104 f hook dt k0 t q) == L q.
Proof.
  intros H0. unfold ssp104. cbv zeta. set (s1 := iterate 4 _ _).
  assert (E1 : L (snd s1) == L q) by (unfold s1; rewrite stages_keep; cbn [snd]; lin; rewrite H0; ring).
  set (s2 := iterate 4 _ _).
  assert (E2 : L (snd s2) == 15 * (1 / 25 * L q + (36 # 100) * L q) + - (5) * L q)
    by (unfold s2; rewrite stages_keep; cbn [snd]; repeat lin; rewrite E1; reflexivity).
  repeat lin. rewrite E1, E2. field.
Qed.
Lemma rk_regs_L n a c dt k0 t q : L k0 == 0 -> Forall (fun r => L r == 0) (rk_registers f hook dt n a c k0 t q).
Proof.
  intros H0. induction n; cbn [rk_registers].
  - repeat constructor. rewrite Lscale, H0. ring.
  - apply Forall_app. split; [exact IHn|]. repeat constructor. unfold rk_stage. apply Ldq.
Qed.
Lemma fold_L (g : nat -> Q) regs l y : Forall (fun r => L r == 0) regs -> L (fun _ => 0) == 0 ->
  L (fold_left (fun y j => vadd y (vscale (g j) (nth j regs (fun _ => 0)))) l y) == L y.
Proof.
  intros F Z. revert y. induction l as [|j l IH]; intros y; cbn [fold_left]; [reflexivity|].
  rewrite IH. lin. assert (E : L (nth j regs (fun _ => 0)) == 0).
  { destruct (nth_in_or_default j regs (fun _ => 0)) as [Hin|Hd]; [|rewrite Hd; exact Z].
    rewrite Forall_forall in F. apply F. exact Hin. }
  rewrite E. ring.
Qed.
Lemma rk_user_keeps_L s a b c dt k0 t q : L k0 == 0 -> L (fun _ => 0) == 0 -> L (rk_user f hook dt s a b c k0 t q) == L q.
Proof. intros H0 Z. unfold rk_user. cbv zeta. apply fold_L; [apply rk_regs_L; exact H0|exact Z]. Qed.

Lemma pyindex_in {A} (l : list A) i x : pyindex l i = Some x -> In x l.
Proof. unfold pyindex. cbv zeta. destruct (_ && _)%bool; [|discriminate]. apply nth_error_In. Qed.

Lemma ssplmm2_keeps_L M dt steps dts regs k0 q q' : L q == M -> L k0 == 0 -> Forall (fun r => L r == M) regs ->
  ~ dt == 0 -> ~ qsum (tl dts) == 0 ->
  ssplmm2 dt steps dts regs k0 q = Some q' -> L q' == M.
Proof.
  intros Hq H0 F Hd Hs. unfold ssplmm2. cbv zeta. destruct (pyindex regs (- steps)) as [old|] eqn:E; [|discriminate].
  intros H. injection H as <-. apply pyindex_in in E. rewrite Forall_forall in F. pose proof (F _ E) as Ho.
  repeat lin. rewrite Hq, H0, Ho. field. split; assumption.
Qed.
Lemma ssplmm3_keeps_L M dt steps dts regs fs q q' : L q == M -> Forall (fun r => L r == 0) fs -> Forall (fun r => L r == M) regs ->
  ~ dt == 0 -> ~ qsum (tl dts) == 0 ->
  ssplmm3 dt steps dts regs fs q = Some q' -> L q' == M.
Proof.
  intros Hq Fs Fr Hd Hs. unfold ssplmm3. cbv zeta. unfold bind2.
  destruct (pyindex fs (-1)) as [k0|] eqn:E0; [|discriminate].
  destruct (pyindex regs (- steps)) as [old|] eqn:E1; [|discriminate].
  destruct (pyindex fs (- steps)) as [fo|] eqn:E2; [|discriminate].
  intros H. injection H as <-. apply pyindex_in in E0, E1, E2. rewrite Forall_forall in Fs, Fr.
  pose proof (Fs _ E0) as A0. pose proof (Fr _ E1) as A1. pose proof (Fs _ E2) as A2.
  repeat lin. rewrite Hq, A0, A1, A2. field. split; assumption.
Qed.
End Lin.

(** An invariant [A] of the solver's own attributes and [B] of the solution that every step keeps is kept by
    evolve_to_time. *)
Section Inv.
Variables (D X E : Type).
Variable stepf : Q -> option Q -> solver E -> sol D X -> solver E * sol D X.
Variable acceptf : solver E -> bool.
Variable before : sol D X -> D * X.
Variables (A : E -> Prop) (B : D -> Prop).
Hypothesis Hbefore : forall so, B (sq so) -> B (fst (before so)).
Hypothesis Hstep : forall ts te s so, A (ext s) -> B (sq so) ->
  A (ext (fst (stepf ts te s so))) /\ B (sq (snd (stepf ts te s so))).
Definition both (s : solver E) (so : sol D X) : Prop := A (ext s) /\ B (sq so).
Lemma attempt_inv ts te n s so s' so' ev e : both s so ->
  attempt stepf acceptf before ts te n s so = (s', so', ev, e) ->
  both s' so' /\ B (sq (ev_before ev)) /\ B (sq (ev_after ev)).
Proof.
  intros [HA HB]. unfold attempt.
  pose proof (Hstep ts te s (mkSol (fst (before so)) (snd (before so)) (st so)) HA (Hbefore so HB)) as [HA' HB'].
  destruct (stepf ts te s _) as [s1 so2]. cbn [fst snd] in HA', HB'.
  destruct (acceptf s1); [|destruct (dt_variable _)]; intros H; injection H as <- <- <- <-; repeat split; assumption.
Qed.
Lemma loop_inv k : forall n ts te s so num tr s' so' num' tr' e, both s so ->
  Forall (fun ev => B (sq (ev_before ev)) /\ B (sq (ev_after ev))) tr ->
  evolve_loop stepf acceptf before k n ts te s so num tr = (s', so', num', tr', e) ->
  both s' so' /\ Forall (fun ev => B (sq (ev_before ev)) /\ B (sq (ev_after ev))) tr'.
Proof.
  induction k; intros n ts te s so num tr s' so' num' tr' e HI HT; cbn [evolve_loop].
  - intros H. injection H as <- <- <- <- <-. auto.
  - destruct (attempt stepf acceptf before ts te n s so) as [[[s1 so1] ev] e1] eqn:Ea.
    destruct (attempt_inv _ _ _ _ _ _ _ _ _ HI Ea) as (HI' & HE).
    destruct e1; [|destruct (finished te so1)]; intros H.
    + injection H as <- <- <- <- <-. auto.
    + injection H as <- <- <- <- <-. auto.
    + eapply IHk; [exact HI'| |exact H]. constructor; auto.
Qed.
Lemma setup_ext ts te (s s' : solver E) e : evolve_setup ts te s = (s', e) -> ext s' = ext s.
Proof.
  unfold evolve_setup. destruct (dt_variable s).
  - cbn. destruct (_ && _)%bool; [|destruct te; [destruct (qleb _ _)|]]; intros H; injection H as <- <-; reflexivity.
  - destruct te as [te|].
    + destruct (qeqb (dt s) 0); [intros H; injection H as <- <-; reflexivity|].
      destruct (qltb _ _); [intros H; injection H as <- <-; reflexivity|].
      destruct (_ && _)%bool; [|destruct (qleb _ _)]; intros H; injection H as <- <-; reflexivity.
    + destruct (_ && _)%bool; intros H; injection H as <- <-; reflexivity.
Qed.
Lemma evolve_inv s so te : both s so -> 
  let r := evolve_to_time stepf acceptf before s so te in
  both (r_solver r) (r_sol r) /\ Forall (fun ev => B (sq (ev_before ev)) /\ B (sq (ev_after ev))) (r_trace r).
Proof.
  intros HI. cbv zeta. unfold evolve_to_time. destruct (evolve_setup (st so) te s) as [s1 e1] eqn:Es.
  apply setup_ext in Es.
  assert (HI1 : both s1 so) by (destruct HI; split; [rewrite Es|]; assumption).
  destruct e1; [split; [exact HI1|constructor]|].
  destruct (evolve_loop _ _ _ _ _ _ _ _ _ _ _) as [[[[s2 so2] num] tr] e2] eqn:El.
  destruct (loop_inv _ _ _ _ _ _ _ _ _ _ _ _ _ HI1 (Forall_nil _) El) as [HI2 HT].
  destruct e2; split; auto; apply Forall_rev; exact HT.
Qed.
End Inv.

(** ** The multistep methods *)
Section Multi.
Variable Idx DX : Type.
Notation V := (Idx -> Q).
Variable L : V -> Q.
Hypothesis HL : linear L.
Variables f hook : Q -> V -> V.
Variable speed : Q -> V -> Q.
Hypothesis Hf : forall t u, L (f t u) == 0.
Hypothesis Hh : forall t u, L (hook t u) == L u.
Variable I : integrator.
Variable lmm_steps : Z.
Variable check : bool.
Variables alpha beta : list Q.
Variable M : Q.

Definition hist_ok (h : hist Idx) : Prop :=
  Forall (fun r => L (fst r) == M) (h_regs h) /\ Forall (fun k => L k == 0) (h_fs h) /\ L (h_dqdt h) == 0.

Lemma forall_last {A} (P : A -> Prop) l d : Forall P l -> P d -> P (last l d).
Proof. intros F Hd. induction F as [|x l Hx F IH]; [exact Hd|]. destruct l; [exact Hx|]. exact IH. Qed.
Lemma forall_removelast {A} (P : A -> Prop) l : Forall P l -> Forall P (removelast l).
Proof. intros F. induction F as [|x l Hx F IH]; [constructor|]. cbn [removelast]. destruct l; constructor; auto. Qed.
Lemma forall_tl {A} (P : A -> Prop) l : Forall P l -> Forall P (tl l).
Proof. intros F. destruct F; [constructor|assumption]. Qed.

Lemma update_keeps s (so : sol V DX) i s' so' i' : hist_ok (ext s) -> L (sq so) == M ->
  update_saved_values I lmm_steps check s so i = (s', so', i') ->
  hist_ok (ext s') /\ L (sq so') == M.
Proof.
  intros (HR & HF & HD) HQ. unfold update_saved_values. destruct (h_dts (ext s)) eqn:Ed.
  - intros H. injection H as <- <- <-. split; [|exact HQ]. unfold hist_ok, set_ext. cbn [ext h_regs h_fs h_dqdt]. repeat split; auto.
    + apply Forall_app. split; [apply forall_removelast; exact HR|]. repeat constructor. exact HQ.
    + apply Forall_app. split; auto.
  - destruct (accept_step s); [|intros H; injection H as <- <- <-; repeat split; assumption].
    set (c := if (is_k3 I && check)%bool then _ else _).
    destruct (is_k3 I && check && negb c)%bool; intros H; injection H as <- <- <-.
    + unfold hist_ok, set_numsteps, set_accept_step, set_ext. cbn [ext h_regs h_fs h_dqdt sq]. repeat split; auto.
      * apply forall_last; assumption.
      * apply (forall_last (fun r => L (fst r) == M)); [exact HR|exact HQ].
    + unfold hist_ok, set_ext. cbn [ext h_regs h_fs h_dqdt sq]. repeat split; auto.
      * unfold roll. apply Forall_app. split; [apply forall_tl; exact HR|]. repeat constructor. exact HQ.
      * destruct I; try exact HF; destruct (Z.leb _ _); unfold roll; apply Forall_app; split; auto; apply forall_tl; exact HF.
Qed.

Lemma get_dt_ext t ts te (s : solver (hist Idx)) : ext (get_dt (multi_get_dt_new I lmm_steps check) t ts te s) = ext s.
Proof.
  unfold get_dt, get_dt_clip, get_dt_choose, multi_get_dt_new.
  destruct te as [te|];
   repeat match goal with |- context [if ?b then _ else _] => lazymatch b with context [if _ then _ else _] => fail | _ => destruct b end end; reflexivity.
Qed.

Hypothesis Hlmm : I = LMM -> length alpha = Z.to_nat lmm_steps /\ (1 <= lmm_steps)%Z /\ qsum alpha == 1.

Lemma lmm_term_L d regs fs i y : Forall (fun r => L r == M) regs -> Forall (fun r => L r == 0) fs ->
  lmm_term d alpha beta regs fs i = Some y -> exists a, pyindex alpha i = Some a /\ L y == a * M.
Proof.
  intros HR HF. unfold lmm_term, bind2.
  destruct (pyindex alpha i) as [a|] eqn:Ea; [|discriminate]. destruct (pyindex regs i) as [r|] eqn:Er; [|discriminate].
  destruct (pyindex beta i) as [b|] eqn:Eb; [|discriminate]. destruct (pyindex fs i) as [k|] eqn:Ek; [|discriminate].
  intros H. injection H as <-. exists a. split; [reflexivity|].
  apply pyindex_in in Er, Ek. rewrite Forall_forall in HR, HF. rewrite (Ladd _ _ HL), !(Lscale _ _ HL), (HR _ Er), (HF _ Ek). ring.
Qed.
Lemma qsum_app l l' : qsum (l ++ l') == qsum l + qsum l'.
Proof. induction l; cbn [qsum app]; [ring|]. rewrite IHl. ring. Qed.
Lemma lmm_fold_L d regs fs n : Forall (fun r => L r == M) regs -> Forall (fun r => L r == 0) fs ->
  (n <= length alpha)%nat ->
  forall acc c y, (forall x, acc = Some x -> L x == c * M) ->
  fold_left (fun acc i => bind2 acc (lmm_term d alpha beta regs fs i) (fun y x => Some (vadd y x))) (map Z.of_nat (seq 0 n)) acc = Some y ->
  L y == (c + qsum (firstn n alpha)) * M.
Proof.
  intros HR HF. induction n; intros Hn acc c y Hacc.
  - cbn. intros E. rewrite (Hacc _ E). ring.
  - rewrite seq_S, map_app, fold_left_app. cbn [map fold_left]. intros E.
    destruct (fold_left _ (map Z.of_nat (seq 0 n)) acc) as [z|] eqn:Ez; [|discriminate].
    unfold bind2 in E. destruct (lmm_term d alpha beta regs fs (Z.of_nat (0 + n))) as [x|] eqn:Ex; [|discriminate].
    injection E as <-. rewrite (Ladd _ _ HL), (IHn ltac:(lia) _ _ _ Hacc Ez).
    destruct (lmm_term_L _ _ _ _ _ HR HF Ex) as (a & Ha & ->).
    unfold pyindex in Ha. replace (Z.leb _ _ && Z.ltb (Z.of_nat (0 + n)) _)%bool with true in Ha by (symmetry; apply andb_true_intro; split; [apply Z.leb_le|apply Z.ltb_lt]; lia).
    replace (Z.ltb (Z.of_nat (0 + n)) 0) with false in Ha by (symmetry; apply Z.ltb_ge; lia).
    rewrite Nat2Z.id in Ha. cbn [Nat.add] in Ha.
    assert (Ef : firstn (S n) alpha = firstn n alpha ++ [a]).
    { clear - Ha. revert alpha Ha. induction n; intros [|b l] Ha; try discriminate.
      - cbn in *. congruence.
      - cbn [nth_error] in Ha. cbn [firstn app]. f_equal. apply (IHn l Ha). }
    rewrite Ef, qsum_app. cbn [qsum]. ring.
Qed.
Lemma lmm_L d regs fs y : I = LMM -> Forall (fun r => L r == M) regs -> Forall (fun r => L r == 0) fs ->
  lmm d lmm_steps alpha beta regs fs = Some y -> L y == M.
Proof.
  intros HI HR HF. destruct (Hlmm HI) as (Hlen & Hs & Hsum). unfold lmm. intros E.
  destruct (lmm_term d alpha beta regs fs (-1)) as [x0|] eqn:E0.
  - destruct (lmm_term_L _ _ _ _ _ HR HF E0) as (a & Ha & Hx).
    rewrite (lmm_fold_L d regs fs (Z.to_nat (lmm_steps - 1)) HR HF ltac:(lia) (Some x0) a y ltac:(intros x Hx'; injection Hx' as <-; exact Hx) E).
    assert (X : a + qsum (firstn (Z.to_nat (lmm_steps - 1)) alpha) == qsum alpha).
    { assert (NE : alpha <> []) by (destruct alpha; [simpl in Hlen; lia|discriminate]).
      destruct (exists_last NE) as (l & b & El). rewrite El in *.
      assert (Hll : length l = Z.to_nat (lmm_steps - 1)) by (rewrite app_length in Hlen; simpl in Hlen; lia).
      unfold pyindex in Ha. rewrite app_length in Ha. cbn [length] in Ha.
      replace (Z.leb _ _ && Z.ltb (-1) _)%bool with true in Ha by (symmetry; apply andb_true_intro; split; [apply Z.leb_le|apply Z.ltb_lt]; lia).
      change (Z.ltb (-1) 0) with true in Ha. cbv iota in Ha.
      replace (Z.to_nat (-1 + Z.of_nat (length l + 1))) with (length l) in Ha by lia.
      rewrite nth_error_app2 in Ha by lia. rewrite Nat.sub_diag in Ha. cbn in Ha. injection Ha as <-.
      rewrite <- Hll, firstn_app, Nat.sub_diag, firstn_all. cbn [firstn]. rewrite app_nil_r, qsum_app. cbn [qsum]. ring. }
    rewrite X, Hsum. ring.
  - exfalso. clear - E. revert E. generalize (map Z.of_nat (seq 0 (Z.to_nat (lmm_steps - 1)))) as l.
    assert (G : forall l, fold_left (fun acc i => bind2 acc (lmm_term d alpha beta regs fs i) (fun y x : V => Some (vadd y x))) l (None : option V) = None) by (induction l; cbn; auto).
    intros l. rewrite G. discriminate.
Qed.

Lemma forall_map_fst l : Forall (fun r => L (fst r) == M) l -> Forall (fun r => L r == M) (map (@fst V Q) l).
Proof. intros F. induction F; constructor; auto. Qed.

Lemma step_keeps_lmm ts te s (so : sol V DX) : I = LMM -> hist_ok (ext s) -> L (sq so) == M ->
  hist_ok (ext (fst (multi_step f speed hook I lmm_steps check alpha beta ts te s so))) /\
  L (sq (snd (multi_step f speed hook I lmm_steps check alpha beta ts te s so))) == M.
Proof.
  intros HI HA HB. unfold multi_step.
  set (s1 := if accept_step s then _ else s).
  assert (HA1 : hist_ok (ext s1)).
  { unfold s1. destruct (accept_step s); [|exact HA]. destruct HA as (A1 & A2 & A3). unfold hist_ok, set_ext. cbn [ext h_regs h_fs h_dqdt]. repeat split; auto. }
  destruct (update_saved_values I lmm_steps check s1 so _) as [[s2 so2] i2] eqn:Eu.
  destruct (update_keeps _ _ _ _ _ _ HA1 HB Eu) as [HA2 HB2].
  pose proof (get_dt_ext (st so2) ts te s2) as EG. set (s3 := get_dt _ _ _ _ s2) in *.
  rewrite HI. cbn [is_ssp]. cbv zeta.
  assert (HA3 : hist_ok (ext s3)) by (rewrite EG; exact HA2).
  match goal with |- context [Z.ltb ?a ?b] => destruct (Z.ltb a b) end; (split; [exact HA3|]).
  - change (L (ssp104 f hook (dt s3) (h_dqdt (ext s3)) (st so2) (sq so2)) == M).
    rewrite (ssp104_keeps_L _ L HL f hook Hf Hh) by apply HA3. exact HB2.
  - change (L (match lmm (dt s3) lmm_steps alpha beta (map fst (h_regs (ext s3))) (h_fs (ext s3)) with Some q' => q' | None => sq so2 end) == M).
    destruct (lmm _ _ _ _ _ _) as [y|] eqn:El; [|exact HB2].
    destruct HA3 as (A1 & A2 & A3). apply (lmm_L _ _ _ _ HI (forall_map_fst _ A1) A2 El).
Qed.
End Multi.
