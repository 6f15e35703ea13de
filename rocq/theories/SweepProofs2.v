(** Proofs about the multi-dimensional classic solvers, part 2: a sweep in closed form, in-place sweeps, conservation. *)
From Verif Require Import Base BCModel BCSpec BCProofs LimiterModel LimiterProofs Classic1DModel Classic1DSpec
  Classic1DProofs Classic1DProofs2 ParallelProofs2 SweepModel SweepSpec SweepProofs.

Lemma layers_nonneg S : (0 <= layers S)%Z.
Proof. unfold layers. destruct (n_bcs S) as [|? [|? [|? [|? ?]]]]; lia. Qed.
Lemma layers_ng S : (1 <= n_ng S)%nat -> (layers S <= Z.of_nat (n_ng S))%Z.
Proof. intros. unfold layers. destruct (n_bcs S) as [|? [|? [|? [|? ?]]]]; lia. Qed.

Section S.
Variable undef : Q -> Q -> Z -> Q.
Variable S : msettings.
Notation neq := (n_neq S).
Notation g := (Z.of_nat (n_ng S)).
Notation ns := (map ncells (n_bcs S)).
Notation near := (near neq (n_naux S)).
Notation reach := (reach (n_nw S) (n_order S) (n_mthlim S)).
Hypothesis Hg : (1 <= n_ng S)%nat.
Hypothesis Hn : Forall (fun n => 0 <= n)%Z ns.

Definition agree (a b : arr Q) : Prop := forall m ix, (0 <= m < Z.of_nat neq)%Z -> a m ix = b m ix.

Lemma vec_in n (a b : Z -> Z -> Q) i j : (forall m, (0 <= m < Z.of_nat n)%Z -> a m i = b m j) -> vec n a i = vec n b j.
Proof. apply vec_ext. Qed.

(** The data along two slices is the same. *)
Lemma line_near d base auxbc src src' e :
  (forall m i, (0 <= m < Z.of_nat neq)%Z -> slice (n_ng S) d base src m i = slice (n_ng S) d base src' m i) ->
  forall r, near r (slice (n_ng S) d base src) (line_dtdx S d (slice (n_ng S) d base auxbc)) (slice (n_ng S) d base auxbc) e
       (slice (n_ng S) d base src') (line_dtdx S d (slice (n_ng S) d base auxbc)) (slice (n_ng S) d base auxbc) e.
Proof. intros H r k Hk. split; [apply vec_ext; intros; apply H; assumption|auto]. Qed.

Notation mxd d := (nth d ns 0%Z).
Lemma line_flux_ext d base auxbc src src' :
  (forall m i, (0 <= m < Z.of_nat neq)%Z -> slice (n_ng S) d base src m i = slice (n_ng S) d base src' m i) ->
  (forall m i, (0 <= m < Z.of_nat neq)%Z -> (1 <= i <= mxd d)%Z ->
     qadd (line_flux undef S d base auxbc src) m i = qadd (line_flux undef S d base auxbc src') m i /\
     fadd (line_flux undef S d base auxbc src) m i = fadd (line_flux undef S d base auxbc src') m i /\
     fadd (line_flux undef S d base auxbc src) m (i + 1)%Z = fadd (line_flux undef S d base auxbc src') m (i + 1)%Z) /\
  cfl1d (line_flux undef S d base auxbc src) = cfl1d (line_flux undef S d base auxbc src').
Proof.
  intros H. pose proof (line_near d base auxbc src src') as N. split.
  - intros m i Hm Hi. unfold line_flux. cbv zeta. split; [|split].
    + rewrite !qadd_at by lia.
      destruct (near_R neq (n_naux S) (n_rpn S d) _ _ _ _ _ _ i i (N i H 1%Z)) as (_ & _ & _ & A1).
      destruct (near_R neq (n_naux S) (n_rpn S d) _ _ _ _ _ _ (i + 1)%Z (i + 1)%Z (N (i + 1)%Z H 1%Z)) as (_ & _ & A2 & _).
      rewrite A1, A2. reflexivity.
    + apply near_fadd; try lia. apply N. exact H.
    + apply near_fadd; try lia. apply N. exact H.
  - unfold line_flux. cbv zeta. apply cfl_same. intros e He. apply N. exact H.
Qed.
Lemma line_change_ext d base auxbc src src' v m i :
  (forall m i, (0 <= m < Z.of_nat neq)%Z -> slice (n_ng S) d base src m i = slice (n_ng S) d base src' m i) ->
  (0 <= m < Z.of_nat neq)%Z -> (1 <= i <= mxd d)%Z ->
  line_change S d (line_flux undef S d base auxbc src) (slice (n_ng S) d base auxbc) v m i =
  line_change S d (line_flux undef S d base auxbc src') (slice (n_ng S) d base auxbc) v m i.
Proof.
  intros H Hm Hi. destruct (line_flux_ext d base auxbc src src' H) as [A _]. destruct (A m i Hm Hi) as (A1 & A2 & A3).
  unfold line_change. rewrite A1, A2, A3. reflexivity.
Qed.

(** ** A sweep in closed form *)
Definition swept (ext : Z) (d : nat) (ix : list Z) : bool :=
  (existsb (zlist_eqb (put d 0 ix)) (lines d (n_ng S) ext ns) && in_slice 1 (mxd d + 1) (get d ix - g + 1))%bool.
Definition sweep_value (ext : Z) (d : nat) (auxbc q : arr Q) (v : Q) (m : Z) (ix : list Z) : Q :=
  if swept ext d ix
  then line_change S d (line_flux undef S d (put d 0 ix) auxbc q) (slice (n_ng S) d (put d 0 ix) auxbc) v m (get d ix - g + 1)
  else v.

Lemma sweep_fold alias d auxbc qold : forall L acc c,
  NoDup L -> (forall b, In b L -> put d 0 b = b) ->
  (alias = true -> forall b m i, In b L -> (0 <= m < Z.of_nat neq)%Z -> acc m (put d i b) = qold m (put d i b)) ->
  let r := fold_left (sweep_body undef S alias d auxbc qold) L (acc, c) in
  (forall m ix, (0 <= m < Z.of_nat neq)%Z -> fst r m ix =
     if (existsb (zlist_eqb (put d 0 ix)) L && in_slice 1 (mxd d + 1) (get d ix - g + 1))%bool
     then line_change S d (line_flux undef S d (put d 0 ix) auxbc qold) (slice (n_ng S) d (put d 0 ix) auxbc) (acc m ix) m (get d ix - g + 1)
     else acc m ix) /\
  snd r = fold_left (fun c b => pymax c (cfl1d (line_flux undef S d b auxbc qold))) L c.
Proof.
  induction L as [|b L IH]; intros acc c HN HP HA; cbv zeta.
  { cbn [fold_left existsb andb fst snd]. auto. }
  inversion HN as [|b' L' Hb HN']; subst. cbn [fold_left].
  destruct (sweep_body undef S alias d auxbc qold (acc, c) b) as [acc' c'] eqn:E.
  unfold sweep_body in E. cbn [fst snd] in E. cbv zeta in E. injection E as Ea Ec.
  assert (SL : forall m i, (0 <= m < Z.of_nat neq)%Z -> slice (n_ng S) d b (if alias then acc else qold) m i = slice (n_ng S) d b qold m i).
  { intros m i Hm. destruct alias; [|reflexivity]. unfold slice. apply HA; [reflexivity|left; reflexivity|exact Hm]. }
  assert (Eout : forall m ix, put d 0 ix <> b -> acc' m ix = acc m ix).
  { intros m ix Hne. rewrite <- Ea. rewrite zlist_eqb_neq by exact Hne. reflexivity. }
  destruct (IH acc' c' HN') as [IH1 IH2].
  { intros b0 H0. apply HP. right. exact H0. }
  { intros Hal b0 m i H0 Hm. rewrite Eout; [apply HA; [exact Hal|right; exact H0|exact Hm]|].
    rewrite put_put. rewrite (HP b0) by (right; exact H0). intros ->. contradiction. }
  split.
  - intros m ix Hm. rewrite IH1 by exact Hm. cbn [existsb].
    destruct (zlist_eqb (put d 0 ix) b) eqn:Eb.
    + apply zlist_eqb_eq in Eb. cbn [orb].
      assert (X : existsb (zlist_eqb (put d 0 ix)) L = false).
      { apply not_true_is_false. intros H. apply existsb_exists in H. destruct H as (y & Hy & E). apply zlist_eqb_eq in E. congruence. }
      rewrite X. cbn [andb]. rewrite <- Ea. rewrite Eb, zlist_eqb_refl. cbn [andb].
      destruct (in_slice 1 (mxd d + 1) (get d ix - g + 1)) eqn:Ei; [|reflexivity].
      apply line_change_ext; [exact SL|exact Hm|]. unfold in_slice in Ei. lia.
    + cbn [orb]. rewrite Eout by (intros K; rewrite K, zlist_eqb_refl in Eb; discriminate). reflexivity.
  - etransitivity; [exact IH2|]. f_equal. rewrite <- Ec. f_equal. apply (line_flux_ext d b auxbc _ _ SL).
Qed.

Lemma sweep_at ext alias d auxbc q : (0 <= ext)%Z -> (d < length (n_bcs S))%nat ->
  (forall m ix, (0 <= m < Z.of_nat neq)%Z -> fst (sweep undef S ext alias d auxbc q q) m ix = sweep_value ext d auxbc q (q m ix) m ix) /\
  snd (sweep undef S ext alias d auxbc q q) =
  fold_left (fun c b => pymax c (cfl1d (line_flux undef S d b auxbc q))) (lines d (n_ng S) ext ns) 0.
Proof.
  intros Hx Hd. unfold sweep. apply sweep_fold.
  - apply lines_nodup.
  - intros b Hb. eapply lines_put; try eassumption. rewrite map_length. exact Hd.
  - reflexivity.
Qed.

(** In-place sweeps and sweeps with a separate output array agree. *)
Lemma sweep_agree ext alias alias' d auxbc q q' : (0 <= ext)%Z -> (d < length (n_bcs S))%nat -> agree q q' ->
  agree (fst (sweep undef S ext alias d auxbc q q)) (fst (sweep undef S ext alias' d auxbc q' q')) /\
  snd (sweep undef S ext alias d auxbc q q) = snd (sweep undef S ext alias' d auxbc q' q').
Proof.
  intros Hx Hd HA.
  destruct (sweep_at ext alias d auxbc q Hx Hd) as [A1 A2]. destruct (sweep_at ext alias' d auxbc q' Hx Hd) as [B1 B2].
  assert (SL : forall b m i, (0 <= m < Z.of_nat neq)%Z -> slice (n_ng S) d b q m i = slice (n_ng S) d b q' m i).
  { intros b m i Hm. apply HA. exact Hm. }
  split.
  - intros m ix Hm. rewrite A1, B1 by exact Hm. unfold sweep_value. rewrite (HA m ix Hm).
    destruct (swept ext d ix) eqn:E; [|reflexivity]. apply line_change_ext; [apply SL|exact Hm|].
    unfold swept in E. apply andb_true_iff in E. destruct E as [_ E]. unfold in_slice in E. lia.
  - rewrite A2, B2. generalize (lines d (n_ng S) ext ns) as L. generalize 0 as c. intros c L. revert c.
    induction L as [|b L IH]; intros c; cbn [fold_left]; [reflexivity|].
    destruct (line_flux_ext d b auxbc q q' (SL b)) as [_ E]. rewrite E. apply IH.
Qed.
Theorem in_place_sweeps auxbc : forall k d q q' c, (k + d <= length (n_bcs S))%nat -> agree q q' ->
  agree (fst (more_sweeps undef S k d auxbc (q, c))) (fst (separate_sweeps undef S k d auxbc (q', c))) /\
  snd (more_sweeps undef S k d auxbc (q, c)) = snd (separate_sweeps undef S k d auxbc (q', c)).
Proof.
  induction k as [|k IH]; intros d q q' c Hk HA; cbn [more_sweeps separate_sweeps fst snd]; [auto|].
  destruct (sweep_agree (layers S) true false d auxbc q q' (layers_nonneg S) ltac:(lia) HA) as [A1 A2].
  rewrite A2. apply IH; [lia|exact A1].
Qed.

(** ** Conservation *)
Variable auxbc : arr Q.
Notation wrapc d x := (g + (x - g) mod (nth d ns 0))%Z.
(** The interior cell that a ghosted index stands for on a periodic grid. *)
Fixpoint wrap_from (ns ix : list Z) : list Z :=
  match ns, ix with
  | n :: ns, x :: ix => (g + (x - g) mod n)%Z :: wrap_from ns ix
  | _, _ => []
  end.
Lemma wrap_length : forall l ix, length ix = length l -> length (wrap_from l ix) = length l.
Proof. induction l as [|n l IH]; intros [|x ix] H; cbn [wrap_from length] in *; try lia. rewrite IH; lia. Qed.
Lemma wrap_get : forall l ix j, length ix = length l -> (j < length l)%nat ->
  get j (wrap_from l ix) = (g + (get j ix - g) mod (nth j l 0))%Z.
Proof.
  induction l as [|n l IH]; intros [|x ix] [|j] H Hj; cbn [wrap_from length get nth] in *; try lia. apply IH; lia.
Qed.

(** Cells inside the grid in the dimensions below d and at most [ext] cells outside in the others. *)
Definition box (ext : Z) (d : nat) (ix : list Z) : Prop :=
  length ix = length ns /\ forall j, (j < length ns)%nat ->
  if Nat.ltb j d then (g <= get j ix < g + nth j ns 0)%Z
  else (g - ext <= get j ix < g + nth j ns 0 + ext)%Z.
Definition wrapped (n : nat) (ext : Z) (d : nat) (a : arr Q) : Prop :=
  forall m ix, (0 <= m < Z.of_nat n)%Z -> box ext d ix -> a m ix = a m (wrap_from ns ix).

Hypothesis Hp : Forall (fun n => 1 <= n)%Z ns.
Lemma np j : (j < length ns)%nat -> (1 <= nth j ns 0)%Z.
Proof. intros H. rewrite Forall_forall in Hp. apply Hp. apply nth_In. exact H. Qed.
Lemma wrap_in j x : (j < length ns)%nat -> (g <= wrapc j x < g + nth j ns 0)%Z.
Proof. intros H. pose proof (np j H). pose proof (Z.mod_pos_bound (x - g) (nth j ns 0%Z) ltac:(lia)). lia. Qed.
Lemma wrap_fix j x : (j < length ns)%nat -> (g <= x < g + nth j ns 0)%Z -> wrapc j x = x.
Proof. intros H Hx. rewrite Z.mod_small; lia. Qed.
Lemma wrap_box ext d ix : (0 <= ext)%Z -> length ix = length ns -> box ext d (wrap_from ns ix).
Proof.
  intros Hx HL. split; [apply wrap_length; exact HL|]. intros j Hj. rewrite wrap_get by assumption.
  pose proof (wrap_in j (get j ix) Hj). destruct (Nat.ltb j d); lia.
Qed.
(** Wrapping commutes with moving along dimension d. *)
Lemma wrap_put d v ix : length ix = length ns -> (d < length ns)%nat ->
  wrap_from ns (put d v ix) = put d (wrapc d v) (wrap_from ns ix).
Proof.
  intros HL Hd. apply list_get_ext.
  - rewrite put_length, !wrap_length; try rewrite put_length; auto.
  - intros j Hj. rewrite wrap_length in Hj by (rewrite put_length; exact HL).
    rewrite wrap_get by (try rewrite put_length; assumption).
    destruct (Nat.eq_dec d j) as [->|Hne].
    + rewrite !get_put; [reflexivity|rewrite wrap_length by exact HL; exact Hj|lia].
    + rewrite !get_put_other by exact Hne. rewrite wrap_get by assumption. reflexivity.
Qed.
Lemma wrap_wrap ix : length ix = length ns -> wrap_from ns (wrap_from ns ix) = wrap_from ns ix.
Proof.
  intros HL. apply list_get_ext.
  - rewrite !wrap_length; auto. rewrite wrap_length; auto.
  - intros j Hj. rewrite wrap_length in Hj by (rewrite wrap_length; auto).
    rewrite !wrap_get; auto; [|rewrite wrap_length; auto]. apply wrap_fix; [exact Hj|]. apply wrap_in. exact Hj.
Qed.
Lemma box_put ext d e v ix : box ext d ix -> (e < length ns)%nat ->
  (if Nat.ltb e d then (g <= v < g + nth e ns 0)%Z else (g - ext <= v < g + nth e ns 0 + ext)%Z) -> box ext d (put e v ix).
Proof.
  intros [HL HB] He Hv. split; [rewrite put_length; exact HL|]. intros j Hj.
  destruct (Nat.eq_dec e j) as [->|Hne].
  - rewrite get_put by lia. exact Hv.
  - rewrite get_put_other by exact Hne. apply HB. exact Hj.
Qed.
Lemma box_weaken ext d ix : (0 <= ext)%Z -> box ext (Datatypes.S d) ix -> box ext d ix.
Proof.
  intros Hx [HL HB]. split; [exact HL|]. intros j Hj. specialize (HB j Hj).
  destruct (Nat.ltb_spec j d); destruct (Nat.ltb_spec j (Datatypes.S d)); lia.
Qed.

Variable ext : Z.
Hypothesis Hx : (0 <= ext)%Z.
Hypothesis Hr : (reach <= ext)%Z.
Hypothesis Wa : wrapped (n_naux S) ext 0 auxbc.
Hypothesis Hk : mcapa_in_aux S.
Lemma Wad d : wrapped (n_naux S) ext d auxbc.
Proof.
  intros m ix Hm HB. apply Wa; [exact Hm|]. destruct HB as [HL HB]. split; [exact HL|]. intros j Hj. specialize (HB j Hj).
  destruct (Nat.ltb_spec j d); destruct (Nat.ltb_spec j 0); lia.
Qed.

(** Values along dimension d through a cell and through the interior cell it stands for. *)
Lemma wrapped_line n d a ix v m : wrapped n ext d a -> (0 <= m < Z.of_nat n)%Z -> (d < length ns)%nat -> box ext d ix ->
  (g - ext <= v < g + nth d ns 0 + ext)%Z -> a m (put d v ix) = a m (put d v (wrap_from ns ix)).
Proof.
  intros W Hm Hd HB Hv. destruct HB as [HL HB].
  assert (B1 : box ext d (put d v ix)).
  { apply box_put; [split; assumption|exact Hd|]. rewrite Nat.ltb_irrefl. exact Hv. }
  assert (B2 : box ext d (put d v (wrap_from ns ix))).
  { apply box_put; [apply wrap_box; assumption|exact Hd|]. rewrite Nat.ltb_irrefl. exact Hv. }
  rewrite (W m _ Hm B1), (W m _ Hm B2). rewrite !wrap_put, wrap_wrap; auto. rewrite wrap_length; auto.
Qed.
Lemma line_dtdx_eq d r r' i i' : (forall k, (0 <= k < Z.of_nat (n_naux S))%Z -> r k i = r' k i') -> line_dtdx S d r i = line_dtdx S d r' i'.
Proof.
  intros H. unfold line_dtdx. destruct (n_capa S) as [k|] eqn:E; [|reflexivity]. rewrite (H k); [reflexivity|]. apply Hk. exact E.
Qed.

Lemma swept_box d ix : (d < length ns)%nat -> box ext (Datatypes.S d) ix -> swept ext d ix = true.
Proof.
  intros Hd [HL HB]. unfold swept. apply andb_true_iff. split.
  - apply existsb_exists. exists (put d 0 ix). split; [|apply zlist_eqb_refl]. apply lines_in; [exact Hx|exact Hn|].
    split; [rewrite put_length; exact HL|]. intros j Hj. destruct (Nat.eqb_spec j d) as [->|Hne].
    + apply get_put. lia.
    + rewrite get_put_other by lia. specialize (HB j Hj). destruct (Nat.ltb j (Datatypes.S d)); lia.
  - specialize (HB d Hd). replace (Nat.ltb d (Datatypes.S d)) with true in HB by (symmetry; apply Nat.ltb_lt; lia).
    unfold in_slice. lia.
Qed.

(** A sweep along a periodic dimension keeps the array periodic in the remaining dimensions. *)
Lemma sweep_wrapped d alias q : (d < length ns)%nat -> wrapped neq ext d q ->
  wrapped neq ext (Datatypes.S d) (fst (sweep undef S ext alias d auxbc q q)).
Proof.
  intros Hd W m ix Hm HB.
  assert (Hd' : (d < length (n_bcs S))%nat) by (rewrite map_length in Hd; exact Hd).
  destruct (sweep_at ext alias d auxbc q Hx Hd') as [A _]. rewrite !A by exact Hm.
  pose proof (proj1 HB) as HL. pose proof (box_weaken ext d ix Hx HB) as HBd.
  assert (HB2 : box ext (Datatypes.S d) (wrap_from ns ix)) by (apply wrap_box; assumption).
  unfold sweep_value. rewrite !swept_box by assumption.
  assert (Hi : (g <= get d ix < g + nth d ns 0)%Z).
  { destruct HB as [_ HB]. specialize (HB d Hd). replace (Nat.ltb d (Datatypes.S d)) with true in HB by (symmetry; apply Nat.ltb_lt; lia). exact HB. }
  assert (Gd : get d (wrap_from ns ix) = get d ix) by (rewrite wrap_get by assumption; apply wrap_fix; assumption).
  rewrite Gd. set (i := (get d ix - g + 1)%Z).
  assert (SQ : forall k mm, (0 <= mm < Z.of_nat neq)%Z -> (1 - ext <= k <= mxd d + ext)%Z ->
     slice (n_ng S) d (put d 0 ix) q mm k = slice (n_ng S) d (put d 0 (wrap_from ns ix)) q mm k).
  { intros k mm Hmm Hkk. unfold slice. rewrite !put_put. apply (wrapped_line neq); auto. lia. }
  assert (SA : forall k mm, (0 <= mm < Z.of_nat (n_naux S))%Z -> (1 - ext <= k <= mxd d + ext)%Z ->
     slice (n_ng S) d (put d 0 ix) auxbc mm k = slice (n_ng S) d (put d 0 (wrap_from ns ix)) auxbc mm k).
  { intros k mm Hmm Hkk. unfold slice. rewrite !put_put. apply (wrapped_line (n_naux S) d); auto; [apply Wad|lia]. }
  assert (N : forall e, (1 <= e <= mxd d + 1)%Z -> near reach
      (slice (n_ng S) d (put d 0 ix) q) (line_dtdx S d (slice (n_ng S) d (put d 0 ix) auxbc)) (slice (n_ng S) d (put d 0 ix) auxbc) e
      (slice (n_ng S) d (put d 0 (wrap_from ns ix)) q) (line_dtdx S d (slice (n_ng S) d (put d 0 (wrap_from ns ix)) auxbc)) (slice (n_ng S) d (put d 0 (wrap_from ns ix)) auxbc) e).
  { intros e He k Hkk. split; [|split].
    - apply vec_ext. intros mm Hmm. apply SQ; [exact Hmm|lia].
    - apply vec_ext. intros mm Hmm. apply SA; [exact Hmm|lia].
    - apply line_dtdx_eq. intros mm Hmm. apply SA; [exact Hmm|lia]. }
  pose proof (reach_1 (n_nw S) (n_order S) (n_mthlim S)) as R1.
  assert (I : (1 <= i <= mxd d)%Z) by (unfold i; lia).
  assert (Q0 : q m ix = q m (wrap_from ns ix)) by (apply W; assumption).
  unfold line_change. rewrite Q0.
  assert (E1 : qadd (line_flux undef S d (put d 0 ix) auxbc q) m i = qadd (line_flux undef S d (put d 0 (wrap_from ns ix)) auxbc q) m i).
  { unfold line_flux. cbv zeta. rewrite !qadd_at by lia.
    destruct (near_R neq (n_naux S) (n_rpn S d) _ _ _ _ _ _ i i (near_weaken _ _ _ _ _ _ _ _ _ 1 i i R1 (N i ltac:(lia)))) as (_ & _ & _ & A1).
    destruct (near_R neq (n_naux S) (n_rpn S d) _ _ _ _ _ _ (i + 1)%Z (i + 1)%Z (near_weaken _ _ _ _ _ _ _ _ _ 1 (i + 1) (i + 1) R1 (N (i + 1)%Z ltac:(lia)))) as (_ & _ & A2 & _).
    rewrite A1, A2. rewrite (line_dtdx_eq d _ (slice (n_ng S) d (put d 0 (wrap_from ns ix)) auxbc) i i); [reflexivity|].
    intros mm Hmm. apply SA; [exact Hmm|lia]. }
  assert (E2 : forall e, (1 <= e <= mxd d + 1)%Z -> fadd (line_flux undef S d (put d 0 ix) auxbc q) m e = fadd (line_flux undef S d (put d 0 (wrap_from ns ix)) auxbc q) m e).
  { intros e He. unfold line_flux. cbv zeta. apply near_fadd; try lia. apply N. exact He. }
  rewrite E1, !E2 by lia. destruct (n_capa S) as [k|] eqn:Ek; [|reflexivity].
  rewrite (SA i k); [reflexivity|apply Hk; exact Ek|lia].
Qed.

(** Conservation along one slice. *)
Definition line_cap (r : Z -> Z -> Q) (i : Z) : Q := match n_capa S with Some k => r k i | None => 1 end.
Definition line_numflux (flux : list Q -> list Q -> Z -> Q) (d : nat) (base : list Z) (q : arr Q) (m e : Z) : Q :=
  let s := slice (n_ng S) d base q in let a := slice (n_ng S) d base auxbc in
  flux (vec neq s (e - 1)) (vec (n_naux S) a (e - 1)) m
  + amdq (solve_rps (n_rpn S d) neq (n_naux S) (-1) s a) m e + fadd (line_flux undef S d base auxbc q) m e.
Lemma line_balance flux d base q m i : conservative neq flux (n_rpn S d) -> (0 <= m < Z.of_nat neq)%Z -> (1 <= i <= mxd d)%Z ->
  ~ line_cap (slice (n_ng S) d base auxbc) i == 0 ->
  line_cap (slice (n_ng S) d base auxbc) i * line_change S d (line_flux undef S d base auxbc q) (slice (n_ng S) d base auxbc) (slice (n_ng S) d base q m i) m i
  == line_cap (slice (n_ng S) d base auxbc) i * slice (n_ng S) d base q m i
     - n_dt S / n_delta S d * (line_numflux flux d base q m (i + 1) - line_numflux flux d base q m i).
Proof.
  intros HC Hm Hi Hc. unfold line_numflux. cbv zeta.
  set (s := slice (n_ng S) d base q) in *. set (a := slice (n_ng S) d base auxbc) in *.
  assert (EQ : qadd (line_flux undef S d base auxbc q) m i == - line_dtdx S d a i *
    (apdq (solve_rps (n_rpn S d) neq (n_naux S) (-1) s a) m i + amdq (solve_rps (n_rpn S d) neq (n_naux S) (-1) s a) m (i + 1)%Z)).
  { unfold line_flux. cbv zeta. rewrite qadd_at by lia. fold s a. ring. }
  pose proof (HC (vec neq s (i - 1)) (vec neq s i) (vec (n_naux S) a (i - 1)) (vec (n_naux S) a i) m Hm) as E.
  assert (A : apdq (solve_rps (n_rpn S d) neq (n_naux S) (-1) s a) m i == flux (vec neq s i) (vec (n_naux S) a i) m
     - flux (vec neq s (i - 1)) (vec (n_naux S) a (i - 1)) m - amdq (solve_rps (n_rpn S d) neq (n_naux S) (-1) s a) m i).
  { cbn [solve_rps apdq amdq]. replace (i + -1)%Z with (i - 1)%Z by lia. replace (i - 1 + 1)%Z with i by lia. lra. }
  replace (i + 1 - 1)%Z with i by lia.
  assert (D : line_cap a i * line_dtdx S d a i == n_dt S / n_delta S d).
  { unfold line_cap, line_dtdx in *. destruct (n_capa S) as [k|]; [|ring].
    unfold Qdiv. setoid_replace (a k i * (n_dt S * / n_delta S d * / a k i)) with (n_dt S * / n_delta S d * (a k i * / a k i)) by ring.
    rewrite Qmult_inv_r by exact Hc. ring. }
  set (f1 := fadd (line_flux undef S d base auxbc q) m (i + 1)%Z). set (f0 := fadd (line_flux undef S d base auxbc q) m i).
  assert (LC : line_cap a i * line_change S d (line_flux undef S d base auxbc q) a (s m i) m i ==
     line_cap a i * s m i + line_cap a i * qadd (line_flux undef S d base auxbc q) m i - n_dt S / n_delta S d * (f1 - f0)).
  { unfold line_change. fold f1 f0. unfold line_cap in *. destruct (n_capa S) as [k|]; [|ring].
    unfold Qdiv. setoid_replace (a k i * (s m i + qadd (line_flux undef S d base auxbc q) m i - n_dt S * / n_delta S d * (f1 - f0) * / a k i))
      with (a k i * s m i + a k i * qadd (line_flux undef S d base auxbc q) m i - n_dt S * / n_delta S d * (f1 - f0) * (a k i * / a k i)) by ring.
    rewrite Qmult_inv_r by exact Hc. ring. }
  rewrite LC, EQ, A. rewrite <- D. ring.
Qed.

(** A sweep along a periodic dimension keeps the total. *)
Theorem sweep_conserves flux d alias q m :
  (d < length ns)%nat -> conservative neq flux (n_rpn S d) -> (0 <= m < Z.of_nat neq)%Z ->
  wrapped neq ext d q -> (forall ix, box 0 0 ix -> ~ mcapacity S auxbc ix == 0) ->
  boxsum ns (fun ix => mcapacity S auxbc (shift g ix) * fst (sweep undef S ext alias d auxbc q q) m (shift g ix)) ==
  boxsum ns (fun ix => mcapacity S auxbc (shift g ix) * q m (shift g ix)).
Proof.
  intros Hd HC Hm W HK.
  assert (Hd' : (d < length (n_bcs S))%nat) by (rewrite map_length in Hd; exact Hd).
  etransitivity; [apply (boxsum_dim d); exact Hd|]. etransitivity; [|symmetry; apply (boxsum_dim d); exact Hd].
  apply boxsum_eq. intros ix HL HB. rewrite put_length in HL.
  assert (HB' : forall j, (j < length ns)%nat -> j <> d -> (0 <= get j ix < nth j ns 0)%Z).
  { intros j Hj Hne. specialize (HB j). rewrite put_length in HB. specialize (HB Hj).
    rewrite <- (get_nth j (put d 1 ns)) in HB. rewrite get_put_other in HB by lia.
    rewrite (get_nth j ns) in HB. exact HB. }
  clear HB. set (base := put d 0 (shift g ix)).
  assert (SP : forall i, shift g (put d i ix) = put d (i + 1 + g - 1)%Z base).
  { intros i. unfold base. rewrite put_put. replace (i + 1 + g - 1)%Z with (i + g)%Z by lia. clear.
    revert d. induction ix as [|x ix IH]; intros [|d]; cbn [put shift map]; try reflexivity. f_equal. apply (IH d). }
  assert (SG : forall j, (j < length ns)%nat -> j <> d -> (g <= get j base < g + nth j ns 0)%Z).
  { intros j Hj Hne. unfold base. rewrite get_put_other by lia. specialize (HB' j Hj Hne).
    assert (E : get j (shift g ix) = (get j ix + g)%Z).
    { rewrite !get_nth. unfold shift. rewrite (nth_indep (map (fun i => (i + g)%Z) ix) 0%Z (0 + g)%Z) by (rewrite map_length; lia).
      apply (map_nth (fun i => (i + g)%Z)). }
    rewrite E. lia. }
  assert (LB : length base = length ns) by (unfold base; rewrite put_length; unfold shift; rewrite map_length; exact HL).
  assert (BX : forall v, (g <= v < g + mxd d)%Z -> box ext (Datatypes.S d) (put d v base) /\ box 0 0 (put d v base)).
  { intros v Hv. split; (split; [rewrite put_length; exact LB|]); intros j Hj;
      (destruct (Nat.eq_dec d j) as [->|Hne]; [rewrite get_put by lia|rewrite get_put_other by exact Hne; specialize (SG j Hj ltac:(lia))]);
      destruct (Nat.ltb j _); lia. }
  destruct (sweep_at ext alias d auxbc q Hx Hd') as [A _].
  assert (Hmx : (1 <= mxd d)%Z) by (apply np; exact Hd).
  assert (PB : put d 0 base = base) by (unfold base; apply put_put).
  assert (CA : forall i, mcapacity S auxbc (shift g (put d i ix)) = line_cap (slice (n_ng S) d base auxbc) (i + 1)).
  { intros i. unfold mcapacity, line_cap, slice. rewrite SP. reflexivity. }
  rewrite (zsum_eq 0 (Z.to_nat (mxd d)) (fun i => mcapacity S auxbc (shift g (put d i ix)) * fst (sweep undef S ext alias d auxbc q q) m (shift g (put d i ix)))
    (fun i => mcapacity S auxbc (shift g (put d i ix)) * q m (shift g (put d i ix)) -
       n_dt S / n_delta S d * (line_numflux flux d base q m (i + 1 + 1) - line_numflux flux d base q m (i + 1)))).
  2:{ intros i Hi. rewrite A by exact Hm. unfold sweep_value. rewrite SP.
      destruct (BX (i + 1 + g - 1)%Z ltac:(lia)) as [B1 B2]. rewrite swept_box by assumption.
      rewrite put_put, PB. rewrite get_put by lia. replace (i + 1 + g - 1 - g + 1)%Z with (i + 1)%Z by lia.
      assert (E : mcapacity S auxbc (put d (i + 1 + g - 1) base) = line_cap (slice (n_ng S) d base auxbc) (i + 1)).
      { rewrite <- SP. apply CA. }
      rewrite E.
      change (q m (put d (i + 1 + g - 1) base)) with (slice (n_ng S) d base q m (i + 1)).
      apply line_balance; [exact HC|exact Hm|lia|]. rewrite <- E. apply HK. exact B2. }
  rewrite zsum_minus, zsum_scale, (zsum_telescope 0 (Z.to_nat (mxd d)) (fun i => line_numflux flux d base q m (i + 1))).
  replace (0 + Z.of_nat (Z.to_nat (mxd d)) + 1)%Z with (mxd d + 1)%Z by lia.
  assert (PER : forall k, (1 - ext <= k <= ext)%Z ->
     (forall mm, (0 <= mm < Z.of_nat neq)%Z -> slice (n_ng S) d base q mm k = slice (n_ng S) d base q mm (k + mxd d)) /\
     (forall mm, (0 <= mm < Z.of_nat (n_naux S))%Z -> slice (n_ng S) d base auxbc mm k = slice (n_ng S) d base auxbc mm (k + mxd d))).
  { intros k Hkk.
    assert (BB : forall v, (g - ext <= v < g + mxd d + ext)%Z -> box ext d (put d v base)).
    { intros v Hv. split; [rewrite put_length; exact LB|]. intros j Hj.
      destruct (Nat.eq_dec d j) as [->|Hne]; [rewrite get_put by lia; rewrite Nat.ltb_irrefl; lia|].
      rewrite get_put_other by exact Hne. specialize (SG j Hj ltac:(lia)). destruct (Nat.ltb j d); lia. }
    assert (WW : wrap_from ns (put d (k + g - 1) base) = wrap_from ns (put d (k + mxd d + g - 1) base)).
    { rewrite !wrap_put by assumption. f_equal. f_equal. replace (k + mxd d + g - 1 - g)%Z with (k + g - 1 - g + 1 * mxd d)%Z by lia.
      rewrite Z.mod_add by lia. reflexivity. }
    split; intros mm Hmm; unfold slice.
    - rewrite (W mm (put d (k + g - 1) base)), (W mm (put d (k + mxd d + g - 1) base)) by (try exact Hmm; apply BB; lia). rewrite WW. reflexivity.
    - rewrite (Wad d mm (put d (k + g - 1) base)), (Wad d mm (put d (k + mxd d + g - 1) base)) by (try exact Hmm; apply BB; lia). rewrite WW. reflexivity. }
  pose proof (reach_1 (n_nw S) (n_order S) (n_mthlim S)) as R1.
  assert (N : near reach (slice (n_ng S) d base q) (line_dtdx S d (slice (n_ng S) d base auxbc)) (slice (n_ng S) d base auxbc) 1
                   (slice (n_ng S) d base q) (line_dtdx S d (slice (n_ng S) d base auxbc)) (slice (n_ng S) d base auxbc) (mxd d + 1)).
  { intros k Hkk. destruct (PER (1 + k)%Z ltac:(lia)) as [P1 P2]. replace (1 + k + mxd d)%Z with (mxd d + 1 + k)%Z in * by lia.
    split; [|split].
    - apply vec_ext. exact P1.
    - apply vec_ext. exact P2.
    - apply line_dtdx_eq. exact P2. }
  assert (FL : line_numflux flux d base q m (mxd d + 1) = line_numflux flux d base q m (0 + 1)).
  { unfold line_numflux. cbv zeta. symmetry. change (0 + 1)%Z with 1%Z.
    destruct (N (-1)%Z ltac:(lia)) as (V1 & V2 & _).
    replace (mxd d + 1 + -1)%Z with (mxd d + 1 - 1)%Z in * by lia. change (1 + -1)%Z with (1 - 1)%Z in *.
    rewrite V1, V2.
    destruct (near_R neq (n_naux S) (n_rpn S d) _ _ _ _ _ _ 1 (mxd d + 1)%Z (near_weaken _ _ _ _ _ _ _ _ _ 1 _ _ R1 N)) as (_ & _ & A2 & _).
    rewrite A2. f_equal. unfold line_flux. cbv zeta. apply near_fadd; try lia. exact N. }
  rewrite FL. ring.
Qed.
End S.
