(** Proofs about the unsplit three-dimensional solver, part 3: the Courant number, leftovers in the work arrays and plane data. *)
From Verif Require Import Base BCModel BCSpec BCProofs LimiterModel LimiterProofs Classic1DModel Classic1DSpec
  Classic1DProofs Classic1DProofs2 Classic1DProofs3 ParallelModel ParallelProofs2 SweepModel SweepSpec SweepProofs SweepProofs2 SweepProofs3 SweepProofs4
  SweepProofs5 SweepProofs6 UnsplitProofs2 UnsplitProofs3 Unsplit3Model Unsplit3Spec Unsplit3Proofs Unsplit3Proofs2.

Section CFL.
Variable undef : Q -> Q -> Z -> Q.
Variable S : msettings.
Variable rpt : nat -> rpt3solver.
Variable rptt : nat -> rptt3solver.
Variable stale : nat -> list Z -> leftovers.
Variable trans : Z.
Notation ns := (map ncells (n_bcs S)).
Hypothesis Hg : (1 <= n_ng S)%nat.
Hypothesis HL : length (n_bcs S) = 3%nat.
Hypothesis Hn : Forall (fun n => 0 <= n)%Z ns.

Lemma layers_3 : layers S = 1%Z.
Proof. unfold layers. destruct (n_bcs S) as [|a [|b [|c [|x l]]]]; cbn [length] in HL; (reflexivity || lia). Qed.
Lemma u3_sweep_max d auxbc x st : (d < 3)%nat ->
  let c := snd (u3_sweep undef S rpt rptt stale trans d auxbc x st) in
  snd st <= c /\
  (forall ix p v, face S d ix -> (0 <= p < Z.of_nat (n_nw S))%Z -> crossed S d auxbc x ix p v -> v <= c) /\
  (c = snd st \/ c = 0 \/ exists ix p, face S d ix /\ (0 <= p < Z.of_nat (n_nw S))%Z /\ crossed S d auxbc x ix p c).
Proof.
  intros Hd c. unfold c. rewrite u3_sweep_cfl by assumption. pose proof (lines_cfl undef S Hg Hn d auxbc x (snd st) ltac:(lia)) as K. rewrite layers_3 in K. exact K.
Qed.
Theorem unsplit3_cfl auxbc qbc : let c := snd (step3 undef S rpt rptt stale trans auxbc qbc qbc) in
  0 <= c /\
  (forall d ix p v, (d < 3)%nat -> face S d ix -> (0 <= p < Z.of_nat (n_nw S))%Z -> crossed S d auxbc qbc ix p v -> v <= c) /\
  (c = 0 \/ exists d ix p, (d < 3)%nat /\ face S d ix /\ (0 <= p < Z.of_nat (n_nw S))%Z /\ crossed S d auxbc qbc ix p c).
Proof.
  unfold step3. cbv zeta. set (sw := fun d => u3_sweep undef S rpt rptt stale trans d auxbc qbc).
  set (r0 := sw 0%nat (qbc, 0)). set (r1 := sw 1%nat r0). set (c := snd (sw 2%nat r1)).
  destruct (u3_sweep_max 0 auxbc qbc (qbc, 0) ltac:(lia)) as (A1 & A2 & A3). change (u3_sweep undef S rpt rptt stale trans 0 auxbc qbc (qbc, 0)) with r0 in *. cbn [snd] in A1, A3.
  destruct (u3_sweep_max 1 auxbc qbc r0 ltac:(lia)) as (B1 & B2 & B3). change (u3_sweep undef S rpt rptt stale trans 1 auxbc qbc r0) with r1 in *.
  destruct (u3_sweep_max 2 auxbc qbc r1 ltac:(lia)) as (C1 & C2 & C3). change (snd (u3_sweep undef S rpt rptt stale trans 2 auxbc qbc r1)) with c in *.
  change (0 <= c /\ (forall d ix p v, (d < 3)%nat -> face S d ix -> (0 <= p < Z.of_nat (n_nw S))%Z -> crossed S d auxbc qbc ix p v -> v <= c) /\
  (c = 0 \/ exists d ix p, (d < 3)%nat /\ face S d ix /\ (0 <= p < Z.of_nat (n_nw S))%Z /\ crossed S d auxbc qbc ix p c)).
  split; [lra|]. split.
  - intros [|[|[|d]]] ix p v Hd HF Hp Hv; [specialize (A2 ix p v HF Hp Hv); lra|specialize (B2 ix p v HF Hp Hv); lra|exact (C2 ix p v HF Hp Hv)|lia].
  - destruct C3 as [E | [C3 | (ix & p & C3)]]; [rewrite E|auto|right; exists 2%nat, ix, p; split; [lia|exact C3]].
    destruct B3 as [E' | [B3 | (ix & p & B3)]]; [rewrite E'|auto|right; exists 1%nat, ix, p; split; [lia|exact B3]].
    destruct A3 as [A3 | [A3 | (ix & p & A3)]]; auto. right. exists 0%nat, ix, p. split; [lia|exact A3].
Qed.
End CFL.

(** ** What was left in the work arrays does not matter *)
Section ST.
Variable undef : Q -> Q -> Z -> Q.
Variable S : msettings.
Variable rpt : nat -> rpt3solver.
Variable rptt : nat -> rptt3solver.
Variables stale stale' : nat -> list Z -> leftovers.
Variable trans : Z.
Hypothesis HD : described (n_order S) trans.

Lemma u3_change_same d G G' auxbc b v m ix : normal G = normal G' ->
  (forall up sl, (1 <= get d ix - Z.of_nat (n_ng S) + 1 <= nth d (map ncells (n_bcs S)) 0)%Z ->
     g3add G up sl m (get d ix - Z.of_nat (n_ng S) + 1)%Z = g3add G' up sl m (get d ix - Z.of_nat (n_ng S) + 1)%Z /\
     h3add G up sl m (get d ix - Z.of_nat (n_ng S) + 1)%Z = h3add G' up sl m (get d ix - Z.of_nat (n_ng S) + 1)%Z) ->
  u3_change S d G auxbc b v m ix = u3_change S d G' auxbc b v m ix.
Proof.
  intros EN H. unfold u3_change. cbv zeta. rewrite EN. destruct (in_slice 1 _ _) eqn:I; [|reflexivity].
  assert (I' : (1 <= get d ix - Z.of_nat (n_ng S) + 1 <= nth d (map ncells (n_bcs S)) 0)%Z) by (unfold in_slice in I; lia).
  set (i := (get d ix - Z.of_nat (n_ng S) + 1)%Z) in *.
  assert (EG : forall up sl, g3add G up sl m i = g3add G' up sl m i) by (intros; apply H; exact I').
  assert (EH : forall up sl, h3add G up sl m i = h3add G' up sl m i) by (intros; apply H; exact I').
  rewrite !EG, !EH. reflexivity.
Qed.
Lemma u3_sweep_stale d auxbc q st st' : (forall m ix, fst st m ix = fst st' m ix) -> snd st = snd st' ->
  (forall m ix, fst (u3_sweep undef S rpt rptt stale trans d auxbc q st) m ix = fst (u3_sweep undef S rpt rptt stale' trans d auxbc q st') m ix) /\
  snd (u3_sweep undef S rpt rptt stale trans d auxbc q st) = snd (u3_sweep undef S rpt rptt stale' trans d auxbc q st').
Proof.
  unfold u3_sweep. generalize (lines d (n_ng S) 1 (map ncells (n_bcs S))) as l. intros l. revert st st'.
  induction l as [|b l IH]; intros st st' E1 E2; cbn [fold_left]; [auto|]. 
  assert (EN : normal (u3_flux undef S rpt rptt stale trans d auxbc q b) = normal (u3_flux undef S rpt rptt stale' trans d auxbc q b)).
  { unfold u3_flux, flux3. cbv zeta. destruct (Z.leb (digit3 trans) 0); reflexivity. }
  apply IH.
  - intros m ix. unfold u3_body. cbv zeta. cbn [fst]. rewrite E1. apply u3_change_same; [exact EN|].
    intros up sl Hi. unfold u3_flux. apply rows_gadd3; auto.
  - change (pymax (snd st) (cfl1d (normal (u3_flux undef S rpt rptt stale trans d auxbc q b))) = pymax (snd st') (cfl1d (normal (u3_flux undef S rpt rptt stale' trans d auxbc q b)))). rewrite E2, EN. reflexivity.
Qed.
Theorem step3_stale auxbc q :
  (forall m ix, fst (step3 undef S rpt rptt stale trans auxbc q q) m ix = fst (step3 undef S rpt rptt stale' trans auxbc q q) m ix) /\
  snd (step3 undef S rpt rptt stale trans auxbc q q) = snd (step3 undef S rpt rptt stale' trans auxbc q q).
Proof.
  unfold step3. cbv zeta. destruct (u3_sweep_stale 0 auxbc q (q, 0) (q, 0) ltac:(reflexivity) eq_refl) as [A1 A2].
  destruct (u3_sweep_stale 1 auxbc q _ _ A1 A2) as [B1 B2]. exact (u3_sweep_stale 2 auxbc q _ _ B1 B2).
Qed.
End ST.

(** ** Transverse fluxes of a slice on which nothing happens *)
Section G.
Variables (neq nw naux : nat) (ng mx : Z).
Variable fwave : bool.
Variables (order trans : Z).
Variable mthlim : Z -> Z.
Variable undef : Q -> Q -> Z -> Q.
Variable rp : rpsolver.
Variable rpt : rpt3solver.
Variable rptt : rptt3solver.
Variable stale : leftovers.
Variables (q : Z -> Z -> Q) (d : Z -> Q) (dy dz : Q) (A : list (Z -> Z -> Q)).
Notation R := (rp_sol neq naux rp q A).
Notation F := (flux3 neq nw naux ng mx fwave order trans mthlim undef rp rpt rptt stale q d dy dz A).
Hypothesis HT : splits_nothing3 neq rpt rptt.
Hypothesis HD : described order trans.
Hypothesis HR : forall e c, (1 <= e <= mx + 1)%Z -> (0 <= c < Z.of_nat neq)%Z -> amdq R c e == 0 /\ apdq R c e == 0 /\
     forall mw, (0 <= mw < Z.of_nat nw)%Z -> wave R c mw e == 0.

Lemma cqxx3_still m e : order <> 1%Z -> (0 <= m < Z.of_nat neq)%Z -> (1 <= e <= mx + 1)%Z ->
  cqxx3 neq nw naux mx fwave order mthlim undef rp stale q d A m e == 0.
Proof.
  intros Ho Hm He. unfold cqxx3. destruct (Z.eqb_spec order 1) as [E|_]; [contradiction|].
  assert (K : f_cqxx nw fwave d (spd R) (if any_limiter nw mthlim then f_limiter neq mx mthlim undef (wave R) (spd R) else wave R) m e == 0).
  { unfold f_cqxx. apply zsum_zero. intros mw Hmw. destruct (HR e m He Hm) as (_ & _ & W). specialize (W mw ltac:(lia)).
    assert (L : (if any_limiter nw mthlim then f_limiter neq mx mthlim undef (wave R) (spd R) else wave R) m mw e == 0).
    { destruct (any_limiter nw mthlim); [|exact W]. unfold f_limiter. destruct (Z.eqb (mthlim mw) 0); [exact W|].
      replace (Z.to_nat (mx + 2)) with (Datatypes.S (Z.to_nat (mx + 1))) by lia.
      rewrite f_limiter_exact by lia. unfold f_lim_at. destruct (qeqb _ 0); rewrite W; [reflexivity|ring]. }
    destruct fwave; rewrite L; ring. }
  rewrite K. ring.
Qed.
Lemma split3_still icoor imp dq up m i : (0 <= m < Z.of_nat neq)%Z -> (forall c, (0 <= c < Z.of_nat neq)%Z -> dq c i == 0) ->
  side up (split3 neq naux rpt q A icoor imp dq i) m == 0.
Proof.
  intros Hm H. unfold split3.
  match goal with |- context [rpt icoor imp ?x1 ?x2 ?x3 ?x4 ?x5] => destruct (HT icoor imp 0%Z x1 x2 x3 x4 x5 (vec_zero neq dq i H) m Hm) as (E1 & E2 & _) end.
  destruct up; assumption.
Qed.
Lemma incr_still icoor imp up m i : (0 <= m < Z.of_nat neq)%Z -> (1 <= i <= mx + 1)%Z -> incr neq naux rp rpt q A icoor imp up m i == 0.
Proof. intros Hm Hi. unfold incr. apply split3_still; [exact Hm|]. intros c Hc. destruct (HR i c Hi Hc) as (E1 & E2 & _). destruct (Z.eqb imp 1); assumption. Qed.
Lemma corr_still icoor imp up m i : digit3 trans = 2%Z -> (0 <= m < Z.of_nat neq)%Z -> (1 <= i <= mx + 1)%Z ->
  corr neq nw naux mx fwave order trans mthlim undef rp rpt stale q d A icoor imp up m i == 0.
Proof.
  intros D3 Hm Hi. unfold corr. rewrite D3. change (2 =? 2)%Z with true. cbv iota. destruct (described_digits order trans HD) as (Ho & _). specialize (Ho D3).
  apply split3_still; [exact Hm|]. intros c Hc. apply cqxx3_still; assumption.
Qed.
Lemma both_still icoor imp top m i : (0 < digit4 trans)%Z -> (0 <= m < Z.of_nat neq)%Z -> (1 <= i <= mx + 1)%Z ->
  both neq nw naux mx fwave order trans mthlim undef rp rpt stale q d A icoor imp top m i == 0.
Proof.
  intros D4 Hm Hi. unfold both. cbv zeta. destruct (described_digits order trans HD) as (_ & _ & T & U).
  destruct (U D4) as [E|E]; rewrite E.
  - cbn. apply incr_still; assumption.
  - change (2 =? 2)%Z with true. cbv iota. destruct (Z.eqb imp 1); rewrite incr_still, corr_still by auto; ring.
Qed.
Lemma double_still icoor imp top up m i : (0 < digit4 trans)%Z -> (0 <= m < Z.of_nat neq)%Z -> (1 <= i <= mx + 1)%Z ->
  double neq nw naux mx fwave order trans mthlim undef rp rpt rptt stale q d A icoor imp top up m i == 0.
Proof.
  intros D4 Hm Hi. unfold double.
  match goal with |- context [rptt icoor imp ?k ?x1 ?x2 ?x3 ?x4 ?x5] => destruct (HT icoor imp k x1 x2 x3 x4 x5 (vec_zero neq _ i (fun c Hc => both_still icoor imp top c i D4 Hc Hi)) m Hm) as (_ & _ & E1 & E2) end.
  destruct up; assumption.
Qed.
Lemma part3_still icoor imp dtc up sl m i : (0 <= m < Z.of_nat neq)%Z -> (1 <= i <= mx + 1)%Z ->
  part3 neq nw naux mx fwave order trans mthlim undef rp rpt rptt stale q d A icoor imp dtc up sl m i == 0.
Proof.
  intros Hm Hi. unfold part3. cbv zeta. destruct (described_digits order trans HD) as (_ & W & _).
  assert (DB : forall top, (0 < digit4 trans)%Z -> double neq nw naux mx fwave order trans mthlim undef rp rpt rptt stale q d A icoor imp top up m i == 0) by (intros; apply double_still; assumption).
  destruct sl as [|[p|p|]|[p|p|]]; try reflexivity.
  - assert (EC : (if Z.leb 2 (digit3 trans) then (if Z.eqb imp 1 then - corr neq nw naux mx fwave order trans mthlim undef rp rpt stale q d A icoor imp up m i else corr neq nw naux mx fwave order trans mthlim undef rp rpt stale q d A icoor imp up m i) else 0) == 0).
    { destruct (Z.leb_spec 2 (digit3 trans)) as [D|_]; [|reflexivity]. destruct (Z.eqb imp 1); rewrite corr_still by auto; ring. }
    rewrite EC, incr_still by assumption. destruct (Z.ltb_spec 0 (digit4 trans)) as [D|_]; [rewrite !DB by exact D|]; ring.
  - destruct (Z.ltb_spec 0 (digit4 trans)) as [D|_]; [rewrite DB by exact D; ring|reflexivity].
  - destruct (Z.ltb_spec 0 (digit4 trans)) as [D|_]; [rewrite DB by exact D; ring|reflexivity].
Qed.
Lemma gadd3_still up sl m i : (0 <= m < Z.of_nat neq)%Z -> (1 <= i <= mx)%Z -> g3add F up sl m i == 0 /\ h3add F up sl m i == 0.
Proof.
  intros Hm Hi. unfold flux3. destruct (Z.leb (digit3 trans) 0); [split; reflexivity|]. cbn [g3add h3add]. unfold add3. rewrite !in_slice_true by lia.
  rewrite !part3_still by (assumption || lia). split; ring.
Qed.
End G.
