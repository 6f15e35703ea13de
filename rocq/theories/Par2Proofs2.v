(** Proofs about parallel runs in more dimensions, part 2: positions in a box and in the grid; dimensional splitting. *)
From Verif Require Import Base BCModel BCSpec BCProofs LimiterModel LimiterProofs Classic1DModel Classic1DSpec
  Classic1DProofs Classic1DProofs2 ParallelModel ParallelProofs2 SweepModel SweepSpec SweepProofs SweepProofs2 SweepProofs3 Par2Model Par2Proofs.

(** The position in the grid of a position in a box *)
Definition moved (bs : list (Z * Z)) (ix : list Z) : list Z := map (fun p => (fst (fst p) + snd p)%Z) (combine bs ix).
Definition start (bs : list (Z * Z)) (j : nat) : Z := fst (nth j bs (0, 0)%Z).
Lemma moved_length bs ix : length ix = length bs -> length (moved bs ix) = length bs.
Proof. intro H. unfold moved. rewrite map_length, combine_length, H. apply Nat.min_id. Qed.
Lemma get_moved : forall bs ix j, length ix = length bs -> (j < length bs)%nat -> get j (moved bs ix) = (start bs j + get j ix)%Z.
Proof.
  induction bs as [|b bs IH]; intros [|i ix] [|j] HL Hj; cbn [length] in *; try lia; [reflexivity|].
  unfold moved, start. cbn [combine map get nth]. apply IH; lia.
Qed.
Lemma moved_put bs d v ix : length ix = length bs -> (d < length bs)%nat -> moved bs (put d v ix) = put d (start bs d + v)%Z (moved bs ix).
Proof.
  intros HL Hd. assert (L1 : length (put d v ix) = length bs) by (rewrite put_length; exact HL).
  apply list_get_ext; [rewrite put_length, !moved_length by assumption; reflexivity|].
  intros j Hj. rewrite moved_length in Hj by assumption. rewrite get_moved by assumption.
  destruct (Nat.eq_dec j d) as [E|N].
  - subst j. rewrite !get_put by (rewrite ?moved_length; lia). reflexivity.
  - rewrite !get_put_other by lia. rewrite get_moved by assumption. reflexivity.
Qed.
Lemma moved_inj bs : forall ix ix', length ix = length bs -> length ix' = length bs -> moved bs ix = moved bs ix' -> ix = ix'.
Proof.
  intros ix ix' H1 H2 E. apply list_get_ext; [lia|]. intros j Hj. assert (K : get j (moved bs ix) = get j (moved bs ix')) by (rewrite E; reflexivity).
  rewrite !get_moved in K by lia. lia.
Qed.

Section W.
Variable undef : Q -> Q -> Z -> Q.
Variable S : msettings.
Variable bs : list (Z * Z).
Notation T := (mlocal S bs).
Notation neq := (n_neq S).
Notation g := (Z.of_nat (n_ng S)).
Notation ns := (map ncells (n_bcs S)).
Notation ns' := (map ncells (n_bcs (mlocal S bs))).
Notation o j := (start bs j).
Hypothesis Hg : (1 <= n_ng S)%nat.
Hypothesis HL : length bs = length (n_bcs S).
Hypothesis HB : forall j, (j < length bs)%nat -> (0 <= fst (nth j bs (0, 0)) /\ fst (nth j bs (0, 0)) < snd (nth j bs (0, 0)) /\ snd (nth j bs (0, 0)) <= nth j ns 0)%Z.

Lemma local_ns_eq : forall Ds (l : list (Z * Z)), length l = length Ds -> map ncells (local_bcs Ds l) = map (fun b => (snd b - fst b)%Z) l.
Proof.
  unfold local_bcs. induction Ds as [|D Ds IH]; intros [|b l] H; cbn [length] in H; try lia; [reflexivity|].
  cbn [combine map local_bc ncells fst snd]. f_equal. apply IH. lia.
Qed.
Lemma T_ns : ns' = map (fun b => (snd b - fst b)%Z) bs.
Proof. cbn [mlocal n_bcs]. apply local_ns_eq. exact HL. Qed.
Lemma T_length : length ns' = length bs.
Proof. rewrite T_ns, map_length. reflexivity. Qed.
Lemma S_length : length ns = length bs.
Proof. rewrite map_length. lia. Qed.
Lemma T_bcs_length : length (n_bcs T) = length bs.
Proof. rewrite <- T_length, map_length. reflexivity. Qed.
Lemma T_nth j : (j < length bs)%nat -> nth j ns' 0%Z = (snd (nth j bs (0, 0)%Z) - fst (nth j bs (0, 0)%Z))%Z.
Proof.
  intro Hj. rewrite T_ns. change 0%Z with ((fun b : Z * Z => (snd b - fst b)%Z) (0, 0)%Z) at 1. apply (map_nth (fun b => (snd b - fst b)%Z)).
Qed.
Lemma fits j : (j < length bs)%nat -> (0 <= o j /\ 1 <= nth j ns' 0 /\ o j + nth j ns' 0 <= nth j ns 0)%Z.
Proof. intro Hj. rewrite T_nth by exact Hj. unfold start. specialize (HB j Hj). lia. Qed.
Lemma T_nonneg : Forall (fun n => 0 <= n)%Z ns'.
Proof. apply Forall_forall. intros n Hin. destruct (In_nth ns' n 0%Z Hin) as (j & Hj & E). rewrite T_length in Hj. pose proof (fits j Hj). rewrite E in H. lia. Qed.
Lemma S_nonneg : Forall (fun n => 0 <= n)%Z ns.
Proof. apply Forall_forall. intros n Hin. destruct (In_nth ns n 0%Z Hin) as (j & Hj & E). rewrite S_length in Hj. pose proof (fits j Hj). rewrite E in H. lia. Qed.
Lemma T_layers : layers T = layers S.
Proof.
  unfold layers. pose proof T_bcs_length as K. rewrite HL in K. cbn [mlocal n_ng n_bcs] in *.
  destruct (n_bcs S) as [|? [|? [|? [|]]]], (local_bcs _ bs) as [|? [|? [|? [|]]]]; cbn [length] in K; try lia; reflexivity.
Qed.

(** [a'] on the box is the part of [a] on the grid: all dimensions below d without ghost cells, the others with ext layers. *)
Definition window (n : nat) (ext : Z) (d : nat) (a' a : arr Q) : Prop :=
  forall m ix, (0 <= m < Z.of_nat n)%Z -> box T ext d ix -> a' m ix = a m (moved bs ix).
Lemma box_len ext d ix : box T ext d ix -> length ix = length bs.
Proof. intros [H _]. rewrite T_length in H. exact H. Qed.
Lemma box_moved ext d ix : (0 <= ext)%Z -> box T ext d ix -> box S ext d (moved bs ix).
Proof.
  intros Hx H. pose proof (box_len ext d ix H) as Hlen. destruct H as [_ H]. split; [rewrite moved_length by exact Hlen; symmetry; apply S_length|].
  intros j Hj. rewrite S_length in Hj. rewrite get_moved by assumption. specialize (H j ltac:(rewrite T_length; exact Hj)). pose proof (fits j Hj).
  cbn [mlocal n_ng] in H. destruct (Nat.ltb j d); lia.
Qed.
Lemma window_weaken n ext ext' d d' a' a : (0 <= ext' <= ext)%Z -> (d <= d')%nat -> window n ext d a' a -> window n ext' d' a' a.
Proof.
  intros Hx Hd W m ix Hm [Hlen H]. apply W; [exact Hm|]. split; [exact Hlen|]. intros j Hj. specialize (H j Hj).
  destruct (Nat.ltb_spec j d'), (Nat.ltb_spec j d); lia.
Qed.

Section X.
Variable ext : Z.
Hypothesis Hx : (reach (n_nw S) (n_order S) (n_mthlim S) <= ext)%Z.
Hypothesis Hk : mcapa_in_aux S.
Variables aux' aux : arr Q.
Hypothesis Wa : window (n_naux S) ext 0 aux' aux.
Lemma ext_1 : (1 <= ext)%Z.
Proof. pose proof (reach_1 (n_nw S) (n_order S) (n_mthlim S)). lia. Qed.

(** The cells of a slice *)
Lemma window_slice n d x' x ix i m : window n ext d x' x -> (0 <= m < Z.of_nat n)%Z -> (d < length bs)%nat -> box T ext (Datatypes.S d) ix ->
  (1 - ext <= i <= nth d ns' 0 + ext)%Z ->
  slice (n_ng T) d (put d 0 ix) x' m i = slice (n_ng S) d (put d 0 (moved bs ix)) x m (i + o d).
Proof.
  intros W Hm Hd B Hi. pose proof (box_len _ _ _ B) as Hlen. unfold slice. rewrite !put_put.
  rewrite (W m (put d (i + Z.of_nat (n_ng T) - 1)%Z ix) Hm).
  - rewrite moved_put by assumption. do 2 f_equal. cbn [mlocal n_ng]. lia.
  - apply box_put; [exact Hg|apply box_weaken; [exact Hg|pose proof ext_1; lia|exact B]|rewrite T_length; exact Hd|].
    rewrite Nat.ltb_irrefl. cbn [mlocal n_ng]. lia.
Qed.
Lemma window_near d x' x ix e r : (r <= ext)%Z -> window neq ext d x' x -> (d < length bs)%nat -> box T ext (Datatypes.S d) ix ->
  (1 <= e <= nth d ns' 0 + 1)%Z ->
  near neq (n_naux S) r (slice (n_ng T) d (put d 0 ix) x') (line_dtdx T d (slice (n_ng T) d (put d 0 ix) aux')) (slice (n_ng T) d (put d 0 ix) aux') e
    (slice (n_ng S) d (put d 0 (moved bs ix)) x) (line_dtdx S d (slice (n_ng S) d (put d 0 (moved bs ix)) aux)) (slice (n_ng S) d (put d 0 (moved bs ix)) aux) (e + o d).
Proof.
  intros Hr W Hd B He k Hk'. pose proof (window_weaken (n_naux S) ext ext 0 d aux' aux ltac:(pose proof ext_1; lia) ltac:(lia) Wa) as Wd.
  split; [|split].
  - apply vec_in. intros m Hm. rewrite (window_slice neq d x' x ix (e + k) m W Hm Hd B) by lia. f_equal. lia.
  - apply vec_in. intros m Hm. rewrite (window_slice (n_naux S) d aux' aux ix (e + k) m Wd Hm Hd B) by lia. f_equal. lia.
  - unfold line_dtdx. cbn [mlocal n_capa n_dt n_delta]. destruct (n_capa S) as [c|] eqn:Ec; [|reflexivity].
    pose proof (window_slice (n_naux S) d aux' aux ix (e + k) c Wd (Hk c Ec) Hd B ltac:(lia)) as Sl. cbn [mlocal n_ng] in Sl. cbn [mlocal n_ng].
    rewrite Sl. replace (e + o d + k)%Z with (e + k + o d)%Z by lia. reflexivity.
Qed.
Lemma window_change d x' x ix v m : (0 <= m < Z.of_nat neq)%Z -> window neq ext d x' x -> (d < length bs)%nat -> box T ext (Datatypes.S d) ix ->
  sweep_value undef T ext d aux' x' v m ix = sweep_value undef S ext d aux x v m (moved bs ix).
Proof.
  intros Hm W Hd B. pose proof (box_len _ _ _ B) as Hlen. pose proof ext_1 as E1.
  pose proof (window_weaken (n_naux S) ext ext 0 d aux' aux ltac:(lia) ltac:(lia) Wa) as Wd.
  unfold sweep_value.
  rewrite (swept_box T Hg T_nonneg ext ltac:(lia) d ix) by (try rewrite T_length; assumption).
  rewrite (swept_box S Hg S_nonneg ext ltac:(lia) d (moved bs ix)); [|rewrite S_length; exact Hd|apply box_moved; [lia|exact B]].
  rewrite get_moved by assumption. set (i := (get d ix - Z.of_nat (n_ng T) + 1)%Z).
  replace (o d + get d ix - g + 1)%Z with (i + o d)%Z by (unfold i; cbn [mlocal n_ng]; lia).
  assert (Hi : (1 <= i <= nth d ns' 0)%Z).
  { destruct B as [_ B]. specialize (B d ltac:(rewrite T_length; exact Hd)). replace (Nat.ltb d (Datatypes.S d)) with true in B by (symmetry; apply Nat.ltb_lt; lia).
    unfold i. cbn [mlocal n_ng n_bcs] in *. lia. }
  pose proof (fits d Hd) as Hf. set (F' := line_flux undef T d (put d 0 ix) aux' x'). set (F := line_flux undef S d (put d 0 (moved bs ix)) aux x).
  assert (Fe : forall e, (1 <= e <= nth d ns' 0 + 1)%Z -> fadd F' m e = fadd F m (e + o d)%Z).
  { intros e He. unfold F', F, line_flux. cbv zeta.
    apply (window_fadd neq (n_nw S) (n_naux S) g (nth d ns' 0%Z) (nth d ns 0%Z) (n_fwave S) (n_order S) (-1) (n_mthlim S) undef (n_rpn S d)); [lia|exact Hm| |lia|lia].
    apply (window_near d x' x ix e); assumption. }
  assert (Fq : qadd F' m i = qadd F m (i + o d)%Z).
  { unfold F', F, line_flux. cbv zeta.
    apply (window_qadd neq (n_nw S) (n_naux S) g (nth d ns' 0%Z) (nth d ns 0%Z) (n_fwave S) (n_order S) (-1) (n_mthlim S) undef (n_rpn S d)); [lia|lia| |].
    - apply (window_near d x' x ix i); try assumption; lia.
    - replace (i + o d + 1)%Z with (i + 1 + o d)%Z by lia. apply (window_near d x' x ix (i + 1)); try assumption; lia. }
  unfold line_change. cbv zeta. rewrite Fq, (Fe i), (Fe (i + 1)%Z) by lia. replace (i + 1 + o d)%Z with (i + o d + 1)%Z by lia.
  cbn [mlocal n_ng n_capa n_dt n_delta]. destruct (n_capa S) as [c|] eqn:Ec; [|reflexivity].
  pose proof (window_slice (n_naux S) d aux' aux ix i c Wd (Hk c Ec) Hd B ltac:(lia)) as Sl. cbn [mlocal n_ng] in Sl. rewrite Sl. reflexivity.
Qed.
Lemma window_sweep d alias alias2 x' x : (d < length bs)%nat -> window neq ext d x' x ->
  window neq ext (Datatypes.S d) (fst (sweep undef T ext alias d aux' x' x')) (fst (sweep undef S ext alias2 d aux x x)).
Proof.
  intros Hd W m ix Hm B. pose proof ext_1 as E1.
  destruct (sweep_at undef T Hg T_nonneg ext alias d aux' x' ltac:(lia) ltac:(rewrite T_bcs_length; exact Hd)) as [A1 _].
  destruct (sweep_at undef S Hg S_nonneg ext alias2 d aux x ltac:(lia) ltac:(lia)) as [A2 _].
  rewrite A1, A2 by exact Hm. rewrite <- (W m ix Hm) by (apply box_weaken; [exact Hg|lia|exact B]).
  apply window_change; assumption.
Qed.
End X.

Section Sweeps.
Hypothesis Hr : (reach (n_nw S) (n_order S) (n_mthlim S) <= layers S)%Z.
Hypothesis Hk : mcapa_in_aux S.
Variables aux' aux x' x : arr Q.
Hypothesis Wa : window (n_naux S) g 0 aux' aux.
Hypothesis Wx : window neq g 0 x' x.
Lemma layers_le : (0 <= layers S <= g)%Z.
Proof. split; [apply layers_nonneg|apply layers_ng; exact Hg]. Qed.
Lemma window_before : forall d, (d <= length bs)%nat -> window neq (layers S) d (before undef T aux' x' d) (before undef S aux x d).
Proof.
  pose proof layers_le as Hl. induction d as [|d IH]; intro Hd; cbn [before].
  - apply (window_weaken neq g (layers S) 0 0); [exact Hl|lia|exact Wx].
  - rewrite T_layers. cbv zeta. apply (window_sweep (layers S) Hr Hk aux' aux); [|lia|apply IH; lia].
    apply (window_weaken (n_naux S) g (layers S) 0 0); [exact Hl|lia|exact Wa].
Qed.
Lemma window_more : forall k d st' st, (k + d <= length bs)%nat -> window neq (layers S) d (fst st') (fst st) ->
  window neq (layers S) (k + d) (fst (more_sweeps undef T k d aux' st')) (fst (more_sweeps undef S k d aux st)).
Proof.
  pose proof layers_le as Hl. induction k as [|k IH]; intros d st' st Hkd W; cbn [more_sweeps]; [exact W|].
  rewrite T_layers. cbv zeta. replace (Datatypes.S k + d)%nat with (k + Datatypes.S d)%nat by lia.
  apply IH; [lia|]. cbn [fst]. apply (window_sweep (layers S) Hr Hk aux' aux); [|lia|exact W].
  apply (window_weaken (n_naux S) g (layers S) 0 0); [exact Hl|lia|exact Wa].
Qed.
(** A split step on the box is the part of the split step on the grid. *)
Theorem window_split m ix : (1 <= length bs)%nat -> (0 <= m < Z.of_nat neq)%Z -> box T 0 0 ix ->
  fst (split_sweeps undef T aux' x') m ix = fst (split_sweeps undef S aux x) m (moved bs ix).
Proof.
  pose proof layers_le as Hl. intros H1 Hm B. unfold split_sweeps. rewrite T_bcs_length, <- HL, T_layers.
  apply (window_more (length bs - 1) 1); [lia| |exact Hm|].
  - apply (window_sweep (layers S) Hr Hk aux' aux); [|lia|].
    + apply (window_weaken (n_naux S) g (layers S) 0 0); [exact Hl|lia|exact Wa].
    + apply (window_weaken neq g (layers S) 0 0); [exact Hl|lia|exact Wx].
  - destruct B as [B1 B2]. split; [exact B1|]. intros j Hj. specialize (B2 j Hj). destruct (Nat.ltb_spec j 0); [lia|].
    rewrite T_length in Hj. replace (Nat.ltb j (length bs - 1 + 1)) with true by (symmetry; apply Nat.ltb_lt; lia). lia.
Qed.
End Sweeps.
End W.
