(** Work arrays: no two elements of the pieces share a place, and all lie inside the array (C35). *)
From Verif Require Import Base WorkModel.
Local Open Scope Z_scope.

(** ** Specification *)
(** An element of an array of this shape *)
Definition element (shape ix : list Z) : Prop := Forall2 (fun n i => 0 <= i < n) shape ix.
(** The place in the work array of element ix of piece k *)
Definition place (starts : list Z) (shapes : list (list Z)) (k : nat) (ix : list Z) : Z :=
  nth k starts 0 + offset (nth k shapes []) ix.
(** The pieces fit in the array work(1:mwork) and do not overlap, and no two elements of one piece coincide. *)
Definition fits (starts : list Z) (shapes : list (list Z)) (mwork : Z) : Prop :=
  length starts = length shapes /\
  (forall k ix, (k < length shapes)%nat -> element (nth k shapes []) ix -> 1 <= place starts shapes k ix <= mwork) /\
  (forall k ix k' ix', (k < length shapes)%nat -> (k' < length shapes)%nat -> element (nth k shapes []) ix -> element (nth k' shapes []) ix' ->
     place starts shapes k ix = place starts shapes k' ix' -> k = k' /\ ix = ix').

(** ** Proofs *)
Definition size (shape : list Z) : Z := fold_right Z.mul 1 shape.
Lemma offset_range shape ix : element shape ix -> 0 <= offset shape ix < size shape.
Proof.
  intros H. induction H as [|n i shape ix Hi H IH]; cbn [offset size fold_right]; [lia|]. fold (size shape).
  assert (A : n * offset shape ix <= n * (size shape - 1)) by (apply Z.mul_le_mono_nonneg_l; lia). assert (B : 0 <= n * offset shape ix) by (apply Z.mul_nonneg_nonneg; lia). lia.
Qed.
Lemma offset_inj shape : forall ix ix', element shape ix -> element shape ix' -> offset shape ix = offset shape ix' -> ix = ix'.
Proof.
  induction shape as [|n shape IH]; intros ix ix' H H' E.
  - inversion H. inversion H'. reflexivity.
  - destruct ix as [|i ix]; [inversion H|]. destruct ix' as [|i' ix']; [inversion H'|]. cbn [offset] in E.
    assert (K : (0 <= i < n /\ element shape ix) /\ (0 <= i' < n /\ element shape ix')) by (inversion H; inversion H'; auto). destruct K as ((A & B) & C & D).
    destruct (Z.div_mod_unique n (offset shape ix) (offset shape ix') i i') as [E1 E2]; [left; lia|left; lia|lia|].
    f_equal; [exact E2|apply IH; assumption].
Qed.
(** Consecutive pieces *)
Fixpoint chain (i0 : Z) (shapes : list (list Z)) : list Z :=
  match shapes with [] => [] | s :: shapes => i0 :: chain (i0 + size s) shapes end.
Definition total (shapes : list (list Z)) : Z := fold_right Z.add 0 (map size shapes).
Lemma size_nonneg s : Forall (fun n => 0 <= n) s -> 0 <= size s.
Proof. intros H. induction H; cbn [size fold_right]; [lia|]. fold (size l). nia. Qed.
Lemma total_nonneg ss : Forall (Forall (fun n => 0 <= n)) ss -> 0 <= total ss.
Proof. intros H. induction H; cbn [total map fold_right]; [lia|]. pose proof (size_nonneg x H). fold (total l). lia. Qed.
Lemma chain_length ss : forall i0, length (chain i0 ss) = length ss.
Proof. induction ss; intros; cbn [chain length]; auto. Qed.
Lemma chain_place ss : Forall (Forall (fun n => 0 <= n)) ss -> forall i0 k ix, (k < length ss)%nat -> element (nth k ss []) ix ->
  i0 <= place (chain i0 ss) ss k ix < i0 + total ss.
Proof.
  intros H. induction H as [|s ss Hs Hss IH]; intros i0 k ix Hk HE; cbn [length] in Hk; [lia|].
  cbn [total map fold_right]. fold (total ss). pose proof (size_nonneg s Hs) as A. pose proof (total_nonneg ss Hss) as B.
  destruct k as [|k]; unfold place; cbn [chain nth] in *.
  - pose proof (offset_range s ix HE). lia.
  - specialize (IH (i0 + size s) k ix ltac:(lia) HE). unfold place in IH. lia.
Qed.
Lemma chain_inj ss : Forall (Forall (fun n => 0 <= n)) ss -> forall i0 k ix k' ix', (k < length ss)%nat -> (k' < length ss)%nat ->
  element (nth k ss []) ix -> element (nth k' ss []) ix' -> place (chain i0 ss) ss k ix = place (chain i0 ss) ss k' ix' -> k = k' /\ ix = ix'.
Proof.
  intros H. induction H as [|s ss Hs Hss IH]; intros i0 k ix k' ix' Hk Hk' HE HE' E; cbn [length] in *; [lia|].
  destruct k as [|k], k' as [|k']; unfold place in E; cbn [chain nth] in *.
  - split; [reflexivity|]. apply (offset_inj s); auto. lia.
  - pose proof (offset_range s ix HE). pose proof (chain_place ss Hss (i0 + size s) k' ix' ltac:(lia) HE') as C. unfold place in C. lia.
  - pose proof (offset_range s ix' HE'). pose proof (chain_place ss Hss (i0 + size s) k ix ltac:(lia) HE) as C. unfold place in C. lia.
  - destruct (IH (i0 + size s) k ix k' ix' ltac:(lia) ltac:(lia) HE HE' E) as [-> ->]. auto.
Qed.
Lemma chain_fits ss mwork : Forall (Forall (fun n => 0 <= n)) ss -> total ss <= mwork -> fits (chain 1 ss) ss mwork.
Proof.
  intros H Hm. split; [apply chain_length|]. split.
  - intros k ix Hk HE. pose proof (chain_place ss H 1 k ix Hk HE). lia.
  - intros k ix k' ix'. apply (chain_inj ss H).
Qed.
Lemma shapes_nonneg p maxm ng neq nw : 0 <= maxm -> 0 <= ng -> 0 <= neq -> 0 <= nw -> Forall (Forall (fun n => 0 <= n)) (shapes p maxm ng neq nw).
Proof.
  intros. unfold shapes. constructor; [repeat constructor; lia|]. constructor; [repeat constructor; lia|].
  apply Forall_forall. intros s Hs. apply repeat_spec in Hs. subst s. repeat constructor; lia.
Qed.

(** ** C35 *)
Theorem C35_work_array_2d :
  forall mx my ng neq nw, 0 <= mx -> 0 <= my -> 0 <= ng -> 0 <= neq -> 0 <= nw ->
  let maxm := Z.max mx my in
  stops (snd (starts2 maxm ng neq nw)) (mwork2 mx my ng neq nw) = false /\
  fits (fst (starts2 maxm ng neq nw)) (shapes 5 maxm ng neq nw) (mwork2 mx my ng neq nw).
Proof.
  intros mx my ng neq nw Hx Hy Hg He Hw maxm. assert (Hm : 0 <= maxm) by lia. unfold mwork2. fold maxm.
  split; [unfold stops, starts2; cbn [snd]; apply Z.ltb_ge; nia|].
  replace (fst (starts2 maxm ng neq nw)) with (chain 1 (shapes 5 maxm ng neq nw)).
  - apply chain_fits; [apply shapes_nonneg; assumption|]. unfold shapes. 
    cbn [repeat map total size fold_right]. nia.
  - unfold shapes. cbn [repeat map chain size fold_right starts2 fst].
    repeat (apply f_equal2; [ring|]). reflexivity.
Qed.
Print Assumptions C35_work_array_2d.

Theorem C35_work_array_3d :
  forall mx my mz ng neq nw, 0 <= mx -> 0 <= my -> 0 <= mz -> 0 <= ng -> 0 <= neq -> 0 <= nw ->
  let maxm := Z.max (Z.max mx my) mz in
  stops (snd (starts3 maxm ng neq nw)) (mwork3 mx my mz ng neq nw) = false /\
  fits (fst (starts3 maxm ng neq nw)) (shapes 31 maxm ng neq nw) (mwork3 mx my mz ng neq nw).
Proof.
  intros mx my mz ng neq nw Hx Hy Hz Hg He Hw maxm. assert (Hm : 0 <= maxm) by lia. unfold mwork3. fold maxm.
  assert (ES : fst (starts3 maxm ng neq nw) = chain 1 (shapes 31 maxm ng neq nw) /\
     snd (starts3 maxm ng neq nw) = (maxm + 2 * ng) * (31 * neq + nw + neq * nw) /\ total (shapes 31 maxm ng neq nw) = (maxm + 2 * ng) * (31 * neq + nw + neq * nw)).
  { unfold shapes, starts3. cbv zeta. generalize (maxm + 2 * ng). intros N.
    cbn [repeat map chain size total fold_right starts3 fst snd].
    set (A := N * neq). replace (neq * (N * 1)) with A by (unfold A; ring). replace (neq * (nw * (N * 1))) with (N * neq * nw) by ring. replace (nw * (N * 1)) with (N * nw) by ring.
    split; [repeat (apply f_equal2; [ring|]); reflexivity|]. split; unfold A; ring. }
  destruct ES as (E1 & E2 & E3). split; [unfold stops; rewrite E2; apply Z.ltb_irrefl|]. rewrite E1. apply chain_fits; [apply shapes_nonneg; assumption|]. rewrite E3. lia.
Qed.
Print Assumptions C35_work_array_3d.

(** The slices that the sweeps pass to flux2 and flux3 are not longer than the arrays. *)
Theorem C35_slices_fit :
  forall mx my mz ng i, 0 <= ng -> 0 <= mx -> 0 <= my -> 0 <= mz ->
  (1 - ng <= i <= mx + ng \/ 1 - ng <= i <= my + ng -> 0 <= i - (1 - ng) < Z.max mx my + 2 * ng) /\
  (1 - ng <= i <= mx + ng \/ 1 - ng <= i <= my + ng \/ 1 - ng <= i <= mz + ng -> 0 <= i - (1 - ng) < Z.max (Z.max mx my) mz + 2 * ng).
Proof. intros. lia. Qed.
Print Assumptions C35_slices_fit.

(** Euler equations on a 3 x 2 grid: the last element of bpadq is the last place of the array. *)
Example C35_example :
  fst (starts2 3 2 4 3) = [1; 85; 106; 134; 162; 190; 218] /\ mwork2 3 2 2 4 3 = 245 /\
  element (nth 6 (shapes 5 3 2 4 3) []) [3; 6] /\ place (fst (starts2 3 2 4 3)) (shapes 5 3 2 4 3) 6 [3; 6] = 245.
Proof. split; [reflexivity|]. split; [reflexivity|]. split; [repeat constructor; lia|reflexivity]. Qed.
