(** Proofs about parallel runs in more dimensions, part 7: a step of all processes is the serial step. *)
From Verif Require Import Base TimeModel BCModel BCSpec BCProofs LimiterModel LimiterProofs Classic1DModel Classic1DSpec
  Classic1DProofs Classic1DProofs2 Classic1DProofs3 GeometrySpec ParallelModel ParallelSpec ParallelProofs ParallelProofs2 ParallelProofs3 ParallelProofs4
  SweepModel SweepSpec SweepProofs SweepProofs2 SweepProofs3 SweepProofs6 RunModel
  UnsplitModel UnsplitSpec UnsplitProofs3 Unsplit3Model Unsplit3Spec Unsplit3Proofs Unsplit3Proofs2 Unsplit3Proofs3
  Par2Model Par2Spec Par2Proofs Par2Proofs2 Par2Proofs3 Par2Proofs4 Par2Proofs5 Par2Proofs6.
Import BCSpec.

Lemma mcollect_stepped (f : arr Q) (P : Z -> Prop) : forall rs,
  (forall b r, In (b, r) rs -> exists a c, r = MStepped a c /\ 0 <= c /\ forall m ix, P m -> holds b ix = true -> a m (relative b ix) = f m ix) ->
  exists A c, mcollect rs = MStepped A c /\
  (forall m ix, P m -> (exists b r, In (b, r) rs /\ holds b ix = true) -> A m ix = f m ix) /\
  0 <= c /\ (forall b a c', In (b, MStepped a c') rs -> c' <= c) /\ (c = 0 \/ exists b a, In (b, MStepped a c) rs).
Proof.
  induction rs as [|[b r] rs IH]; intros H; cbn [mcollect].
  - exists (fun _ _ => 0), 0. split; [reflexivity|]. split; [intros m ix _ (b & r & [] & _)|]. split; [lra|]. split; [intros b a c' []|]. left. reflexivity.
  - destruct (H b r (or_introl eq_refl)) as (a & c & -> & Hc & Ha).
    destruct IH as (A & c0 & E & IA & I0 & I1 & I2).
    { intros b' r' Hin. apply H. right. exact Hin. }
    rewrite E. eexists. exists (pymax c c0). split; [reflexivity|]. destruct (pymax_spec c c0) as (M1 & M2 & M3). split; [|split; [lra|split]].
    + intros m ix Hm (b' & r' & Hin & Hi). destruct (holds b ix) eqn:Es.
      * apply Ha; assumption.
      * apply IA; [exact Hm|]. destruct Hin as [Hin|Hin].
        -- injection Hin as <- _. congruence.
        -- exists b', r'. auto.
    + intros b' a' c' [Hin|Hin]; [injection Hin as _ _ <-; exact M1|]. specialize (I1 _ _ _ Hin). lra.
    + destruct M3 as [-> | ->].
      * right. exists b, a. left. reflexivity.
      * destruct I2 as [-> | (b' & a' & Hin)]; [left; reflexivity|]. right. exists b', a'. right. exact Hin.
Qed.

Section P.
(** The kernel of the serial step and that of the processes *)
Variables K K' : mkernel.
Variable S : msettings.
Variable css : list (list (Z * Z)).
Notation neq := (n_neq S).
Notation g := (Z.of_nat (n_ng S)).
Notation has_aux := (Nat.ltb 0 (n_naux S)).
Hypothesis Hg : (1 <= n_ng S)%nat.
Hypothesis HF : Forall (fit_dim (n_ng S) has_aux (Z.of_nat neq)) (n_bcs S).
Hypothesis HD : mdecomposed (n_ng S) (n_bcs S) css.
Definition kernel_parts : Prop := forall bs, In bs (combos css) -> length bs = length (n_bcs S) ->
  (forall j, (j < length bs)%nat -> (0 <= fst (nth j bs (0, 0)) /\ fst (nth j bs (0, 0)) < snd (nth j bs (0, 0)) /\ snd (nth j bs (0, 0)) <= nth j (map ncells (n_bcs S)) 0)%Z) ->
  forall aux' aux x' x, window S bs (n_naux S) g 0 aux' aux -> window S bs neq g 0 x' x ->
  0 <= snd (K' (mlocal S bs) aux' x') /\
  forall m ix, (0 <= m < Z.of_nat neq)%Z -> box (mlocal S bs) 0 0 ix -> fst (K' (mlocal S bs) aux' x') m ix = fst (K S aux x) m (moved bs ix).
Hypothesis KW : kernel_parts.

Lemma mpar_all q aux q' aux' qbc0 auxbc0 auxbc0' : same_mcells neq (n_bcs S) q q' -> same_mcells (n_naux S) (n_bcs S) aux aux' ->
  exists qbc auxbc A c,
  mserial_step K S q aux qbc0 auxbc0 = MStepped (set_q_from_qbc Q (n_ng S) (fst (K S auxbc qbc))) (snd (K S auxbc qbc)) /\
  mpar_step K' S (combos css) q' aux' auxbc0' = MStepped A c /\
  (forall m ix, (0 <= m < Z.of_nat neq)%Z -> in_domain (n_bcs S) ix -> A m ix = set_q_from_qbc Q (n_ng S) (fst (K S auxbc qbc)) m ix) /\
  0 <= c /\
  (forall bs, In bs (combos css) -> exists qbc' auxbc', window S bs (n_naux S) g 0 auxbc' auxbc /\ window S bs neq g 0 qbc' qbc /\ snd (K' (mlocal S bs) auxbc' qbc') <= c) /\
  (c = 0 \/ exists bs qbc' auxbc', In bs (combos css) /\ window S bs (n_naux S) g 0 auxbc' auxbc /\ window S bs neq g 0 qbc' qbc /\ c = snd (K' (mlocal S bs) auxbc' qbc')).
Proof.
  intros Sq Sx. unfold mserial_step.
  destruct (apply_bcs_at Q Qopp (n_ng S) has_aux (n_funs S) (Z.of_nat neq) (n_bcs S) q aux qbc0 auxbc0 Hg HF) as (qbc & auxbc & E & _).
  rewrite E. cbv zeta. exists qbc, auxbc.
  assert (LO : forall bs, In bs (combos css) -> exists qbc' auxbc', window S bs (n_naux S) g 0 auxbc' auxbc /\ window S bs neq g 0 qbc' qbc /\
    mlocal_step K' S q' aux' auxbc0' bs = MStepped (set_q_from_qbc Q (n_ng S) (fst (K' (mlocal S bs) auxbc' qbc'))) (snd (K' (mlocal S bs) auxbc' qbc'))).
  { intros bs Hb. destruct (ghost_windows S css Hg HF HD q aux q' aux' qbc0 auxbc0 auxbc0' bs Sq Sx Hb) as (qb & xb & qb' & xb' & E1 & E2 & W1 & W2).
    rewrite E in E1. injection E1 as <- <-. exists qb', xb'. split; [exact W2|]. split; [exact W1|]. unfold mlocal_step. rewrite E2. reflexivity. }
  destruct (mcollect_stepped (set_q_from_qbc Q (n_ng S) (fst (K S auxbc qbc))) (fun m => (0 <= m < Z.of_nat neq)%Z)
    (map (fun b => (b, mlocal_step K' S q' aux' auxbc0' b)) (combos css))) as (A & c & EP & PA & P0 & P1 & P2).
  { intros bs r Hin. apply in_map_iff in Hin. destruct Hin as (bs' & Eb & Hb). injection Eb as -> <-.
    destruct (LO bs Hb) as (qb & xb & Wa & Wx & ->). eexists. eexists. split; [reflexivity|].
    destruct (fit_box_nth _ _ _ _ _ (boxes_fit S css Hg HF HD bs Hb)) as [Lb Nb].
    destruct (KW bs Hb Lb Nb xb auxbc qb qbc Wa Wx) as [K0 K1]. split; [exact K0|].
    intros m ix Hm Hh. apply holds_in in Hh. unfold set_q_from_qbc. fold (shift g (relative bs ix)). fold (shift g ix).
    pose proof (forall2_length _ _ _ Hh) as Hlen.
    rewrite K1; [rewrite moved_relative by lia; reflexivity|exact Hm|].
    split; [rewrite shift_length, relative_length, (T_length S bs Hg Lb); lia|]. intros j Hj. rewrite (T_length S bs Hg Lb) in Hj.
    replace (Nat.ltb j 0) with false by reflexivity. rewrite get_shift by (rewrite relative_length; lia). rewrite get_relative by lia. rewrite (T_nth S bs Hg Lb j Hj).
    pose proof (forall2_get _ _ _ Hh j Hj) as G. cbv beta in G. unfold start. cbn [mlocal n_ng]. lia. }
  exists A, c. split; [reflexivity|]. split; [exact EP|]. split; [|split; [exact P0|split]].
  - intros m ix Hm Hix. apply PA; [exact Hm|]. destruct (combos_cover _ _ _ HD ix Hix) as (bs & Hb & Hh).
    exists bs, (mlocal_step K' S q' aux' auxbc0' bs). split; [apply in_map_iff; exists bs; auto|apply holds_in; exact Hh].
  - intros bs Hb. destruct (LO bs Hb) as (qb & xb & Wa & Wx & EL). exists qb, xb. split; [exact Wa|]. split; [exact Wx|].
    eapply P1. apply in_map_iff. exists bs. split; [|exact Hb]. rewrite EL. reflexivity.
  - destruct P2 as [-> | (bs & a & Hin)]; [left; reflexivity|]. right. apply in_map_iff in Hin. destruct Hin as (bs' & Eb & Hb). injection Eb as -> Eb.
    destruct (LO bs Hb) as (qb & xb & Wa & Wx & EL). rewrite EL in Eb. injection Eb as _ <-. exists bs, qb, xb. auto.
Qed.
(** The Courant number is the largest number of cells crossed at the faces with one layer around the grid. *)
Definition kernel_courant (K0 : mkernel) (S0 : msettings) : Prop := forall aux x, let c := snd (K0 S0 aux x) in
  0 <= c /\
  (forall d ix p v, (d < length (n_bcs S0))%nat -> face1 S0 d ix -> (0 <= p < Z.of_nat (n_nw S0))%Z -> crossed S0 d aux x ix p v -> v <= c) /\
  (c = 0 \/ exists d ix p, (d < length (n_bcs S0))%nat /\ face1 S0 d ix /\ (0 <= p < Z.of_nat (n_nw S0))%Z /\ crossed S0 d aux x ix p c).
Hypothesis Hg2 : (2 <= n_ng S)%nat.
Hypothesis Hk : mcapa_in_aux S.
Theorem mpar_step_serial q aux q' aux' qbc0 auxbc0 auxbc0' : kernel_courant K S -> (forall bs, In bs (combos css) -> kernel_courant K' (mlocal S bs)) ->
  same_mcells neq (n_bcs S) q q' -> same_mcells (n_naux S) (n_bcs S) aux aux' ->
  match mserial_step K S q aux qbc0 auxbc0, mpar_step K' S (combos css) q' aux' auxbc0' with
  | MStepped q1 c1, MStepped q2 c2 => same_mcells neq (n_bcs S) q2 q1 /\ c2 == c1
  | _, _ => False
  end.
Proof.
  intros KS KT Sq Sx. destruct (mpar_all q aux q' aux' qbc0 auxbc0 auxbc0' Sq Sx) as (qbc & auxbc & A & c & -> & -> & PA & P0 & P1 & P2).
  split; [exact PA|]. destruct (KS auxbc qbc) as (C0 & C1 & C2). apply Qle_antisym.
  - destruct P2 as [-> | (bs & qb & xb & Hb & Wa & Wx & ->)]; [exact C0|]. destruct (KT bs Hb xb qb) as (_ & _ & [E|T2]); [rewrite E; exact C0|].
    destruct T2 as (d & ix & p & Hd & Fx & Hp & Cx). pose proof (boxes_fit S css Hg HF HD bs Hb) as HB. destruct (fit_box_nth _ _ _ _ _ HB) as [Lb _].
    rewrite (T_bcs_length S bs Hg Lb), Lb in Hd. apply (C1 d (moved bs ix) p); [exact Hd|apply (face_moved S Hg); assumption|exact Hp|].
    apply (crossed_moved S Hg Hg2 Hk bs xb auxbc qb qbc); assumption.
  - destruct C2 as [E | (d & ix & p & Hd & Fx & Hp & Cx)]; [rewrite E; exact P0|].
    destruct (face_cover S css Hg HF HD d ix Hd Fx) as (bs & ix' & Hb & Fx' & Em). destruct (P1 bs Hb) as (qb & xb & Wa & Wx & Hle).
    pose proof (boxes_fit S css Hg HF HD bs Hb) as HB. destruct (fit_box_nth _ _ _ _ _ HB) as [Lb _].
    destruct (KT bs Hb xb qb) as (_ & T1 & _). eapply Qle_trans; [|exact Hle]. apply (T1 d ix' p); [rewrite (T_bcs_length S bs Hg Lb); lia|exact Fx'|exact Hp|].
    apply (crossed_moved S Hg Hg2 Hk bs xb auxbc qb qbc); try assumption. rewrite Em. exact Cx.
Qed.
End P.

(** The three kernels *)
Section U.
Variable S : msettings.
Variable css : list (list (Z * Z)).
Notation neq := (n_neq S).
Notation g := (Z.of_nat (n_ng S)).
Notation has_aux := (Nat.ltb 0 (n_naux S)).
Hypothesis Hg2 : (2 <= n_ng S)%nat.
Hypothesis HF : Forall (fit_dim (n_ng S) has_aux (Z.of_nat neq)) (n_bcs S).
Hypothesis HD : mdecomposed (n_ng S) (n_bcs S) css.
Hypothesis Hk : mcapa_in_aux S.
Variable undef : Q -> Q -> Z -> Q.

Lemma Hg1' : (1 <= n_ng S)%nat. Proof. lia. Qed.
Lemma S_nonneg' : Forall (fun n => (0 <= n)%Z) (map ncells (n_bcs S)).
Proof.
  clear -HF. apply Forall_forall. intros n Hn. apply in_map_iff in Hn. destruct Hn as (D & <- & HDi).
  pose proof (proj1 (Forall_forall _ _) HF D HDi) as F. destruct F as (_ & _ & _ & _ & _ & (_ & _ & F) & _). lia.
Qed.
Lemma fit_nth bs : In bs (combos css) -> length bs = length (n_bcs S) /\
  (forall j, (j < length bs)%nat -> (0 <= fst (nth j bs (0, 0)) /\ fst (nth j bs (0, 0)) < snd (nth j bs (0, 0)) /\ snd (nth j bs (0, 0)) <= nth j (map ncells (n_bcs S)) 0)%Z).
Proof. intros Hb. exact (fit_box_nth _ _ _ _ _ (boxes_fit S css Hg1' HF HD bs Hb)). Qed.

Section U2.
Hypothesis H2 : length (n_bcs S) = 2%nat.
Variable trans : Z.
Lemma unsplit_courant : kernel_courant (unsplit_kernel undef trans) S.
Proof.
  intros aux x. unfold unsplit_kernel. rewrite H2. apply (unsplit_cfl undef S trans Hg1' H2 S_nonneg').
Qed.
Lemma unsplit_courant_local bs : In bs (combos css) -> kernel_courant (unsplit_kernel undef trans) (mlocal S bs).
Proof.
  intros Hb aux x. destruct (fit_nth bs Hb) as [Lb Nb]. unfold unsplit_kernel. pose proof (T_bcs_length S bs Hg1' Lb) as TL.
  assert (L2 : length (n_bcs (mlocal S bs)) = 2%nat) by lia. rewrite L2.
  apply (unsplit_cfl undef (mlocal S bs) trans Hg1' L2 (T_nonneg S bs Hg1' Lb Nb)).
Qed.
Lemma unsplit_parts : kernel_parts (unsplit_kernel undef trans) (unsplit_kernel undef trans) S css.
Proof.
  intros bs Hb Lb Nb aux' aux x' x Wa Wx. split; [apply (unsplit_courant_local bs Hb aux' x')|].
  intros m ix Hm B. apply (window_unsplit undef S bs trans Hg2); try assumption. lia.
Qed.
End U2.

Section U3.
Hypothesis H3 : length (n_bcs S) = 3%nat.
Variables (rpt : nat -> rpt3solver) (rptt : nat -> rptt3solver) (trans : Z).
Hypothesis Ht : described (n_order S) trans.
Lemma face_face1 S0 d ix : length (n_bcs S0) = 3%nat -> face S0 d ix <-> face1 S0 d ix.
Proof.
  intros L3. unfold face, face1. replace (layers S0) with 1%Z; [reflexivity|].
  unfold layers. destruct (n_bcs S0) as [|? [|? [|? [|]]]]; cbn [length] in L3; (reflexivity || lia).
Qed.
Lemma courant3 stale S0 : (1 <= n_ng S0)%nat -> length (n_bcs S0) = 3%nat -> Forall (fun n => (0 <= n)%Z) (map ncells (n_bcs S0)) ->
  kernel_courant (unsplit3_kernel undef rpt rptt stale trans) S0.
Proof.
  intros G L3 N aux x. unfold unsplit3_kernel. rewrite L3. cbv zeta.
  destruct (unsplit3_cfl undef S0 rpt rptt stale trans G L3 N aux x) as (C0 & C1 & C2). split; [exact C0|]. split.
  - intros d ix p v Hd Hf. apply (C1 d ix p v Hd). apply face_face1; assumption.
  - destruct C2 as [C2|(d & ix & p & Hd & Hf & Hp)]; [left; exact C2|right]. exists d, ix, p. split; [exact Hd|]. split; [apply face_face1; assumption|exact Hp].
Qed.
Lemma unsplit3_courant stale : kernel_courant (unsplit3_kernel undef rpt rptt stale trans) S.
Proof. exact (courant3 stale S Hg1' H3 S_nonneg'). Qed.
Lemma unsplit3_courant_local stale bs : In bs (combos css) -> kernel_courant (unsplit3_kernel undef rpt rptt stale trans) (mlocal S bs).
Proof.
  intros Hb. destruct (fit_nth bs Hb) as [Lb Nb]. pose proof (T_bcs_length S bs Hg1' Lb) as TL.
  apply courant3; [exact Hg1'|lia|exact (T_nonneg S bs Hg1' Lb Nb)].
Qed.
Lemma unsplit3_parts stale stale' : kernel_parts (unsplit3_kernel undef rpt rptt stale trans) (unsplit3_kernel undef rpt rptt stale' trans) S css.
Proof.
  intros bs Hb Lb Nb aux' aux x' x Wa Wx. split; [apply (unsplit3_courant_local stale' bs Hb aux' x')|].
  intros m ix Hm B. apply (window_unsplit3 undef S bs rpt rptt stale' stale trans Ht Hg2); try assumption. lia.
Qed.
End U3.

Lemma split_parts : (1 <= length (n_bcs S))%nat -> (reach (n_nw S) (n_order S) (n_mthlim S) <= layers S)%Z ->
  kernel_parts (split_kernel undef) (split_kernel undef) S css.
Proof.
  intros H1 Hr bs Hb Lb Nb aux' aux x' x Wa Wx. unfold split_kernel. split.
  - apply (split_cfl undef (mlocal S bs) Hg1' (T_nonneg S bs Hg1' Lb Nb) aux' x'). rewrite (T_bcs_length S bs Hg1' Lb). lia.
  - intros m ix Hm B. apply (window_split undef S bs Hg1' Lb Nb Hr Hk aux' aux x' x Wa Wx); [lia|exact Hm|exact B].
Qed.
End U.
