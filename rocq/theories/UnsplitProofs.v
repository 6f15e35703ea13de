(** Proofs about the unsplit two-dimensional solver: what one step adds to an interior cell. *)
From Verif Require Import Base BCModel BCSpec BCProofs LimiterModel LimiterProofs Classic1DModel Classic1DSpec
  Classic1DProofs Classic1DProofs2 SweepModel SweepSpec SweepProofs SweepProofs2 SweepProofs4 UnsplitModel.

Lemma zsum_delta lo n k (v : Q) : (lo <= k < lo + Z.of_nat n)%Z -> zsum lo n (fun j => if Z.eqb j k then v else 0) == v.
Proof.
  induction n as [|n IH]; intros Hk; cbn [zsum]; [lia|]. destruct (Z.eqb_spec (lo + Z.of_nat n) k) as [E|Hne].
  - rewrite zsum_zero; [ring|]. intros i Hi. destruct (Z.eqb_spec i k); [lia|reflexivity].
  - rewrite IH by lia. ring.
Qed.
Lemma zsum_three lo n r f : (lo <= r - 1)%Z -> (r + 1 < lo + Z.of_nat n)%Z ->
  (forall j, j <> (r - 1)%Z -> j <> r -> j <> (r + 1)%Z -> f j == 0) ->
  zsum lo n f == f (r - 1)%Z + f r + f (r + 1)%Z.
Proof.
  intros H1 H2 H. rewrite <- (zsum_delta lo n (r - 1) (f (r - 1)%Z)) by lia. rewrite <- (zsum_delta lo n r (f r)) at 1 by lia.
  rewrite <- (zsum_delta lo n (r + 1) (f (r + 1)%Z)) by lia. rewrite <- !zsum_plus. apply zsum_eq. intros j _.
  destruct (Z.eqb_spec j (r - 1)) as [E1|N1]; destruct (Z.eqb_spec j r) as [E2|N2]; destruct (Z.eqb_spec j (r + 1)) as [E3|N3]; try lia; try (subst j; ring).
  rewrite H by assumption. ring.
Qed.

Section U.
Variable undef : Q -> Q -> Z -> Q.
Variable S : msettings.
Variable trans : Z.
Notation neq := (n_neq S).
Notation g := (Z.of_nat (n_ng S)).
Notation ns := (map ncells (n_bcs S)).
Notation mxd d := (nth d ns 0%Z).
Hypothesis Hg : (1 <= n_ng S)%nat.
Variable auxbc qold : arr Q.
Notation F d j := (t_flux undef S trans d auxbc qold j).

Lemma t_change_add d G j v m ix : t_change S d G auxbc j v m ix == v + t_change S d G auxbc j 0 m ix.
Proof.
  unfold t_change. destruct (in_slice _ _ _); [|ring]. destruct (Z.eqb _ j); [ring|]. destruct (Z.eqb _ (j - 1)); [ring|].
  destruct (Z.eqb _ (j + 1)); ring.
Qed.
Lemma t_sweep_sum d st m ix : fst (t_sweep undef S trans d auxbc qold st) m ix ==
  fst st m ix + zsum 0 (Z.to_nat (mxd (1 - d) + 2)) (fun j => t_change S d (F d j) auxbc j 0 m ix).
Proof.
  unfold t_sweep. generalize (Z.to_nat (mxd (1 - d) + 2)) as n. intros n.
  assert (K : forall n lo st, fst (fold_left (t_body undef S trans d auxbc qold) (zrange lo n) st) m ix ==
     fst st m ix + zsum lo n (fun j => t_change S d (F d j) auxbc j 0 m ix)); [|apply K]. clear n st.
  induction n as [|n IH]; intros lo st.
  - cbn [zsum zrange seq map fold_left]. ring.
  - replace (zrange lo (Datatypes.S n)) with (lo :: zrange (lo + 1) n).
    + cbn [fold_left]. rewrite IH. rewrite zsum_first. unfold t_body. cbv zeta. cbn [fst]. rewrite (t_change_add d (F d lo) lo (fst st m ix)). ring.
    + unfold zrange. cbn [seq map]. f_equal; [lia|]. rewrite <- seq_shift, map_map. apply map_ext. intros a. lia.
Qed.

(** The net transverse correction of an interior cell *)
Definition t_trans (d : nat) (m : Z) (ix : list Z) : Q :=
  let i := (get d ix - g + 1)%Z in let r := (get (1 - d) ix - g + 1)%Z in
  let x := n_dt S / n_delta S (1 - d) *
     ((gadd1 (F d r) m i - gadd1 (F d (r + 1)) m i) + (gadd2 (F d (r - 1)) m i - gadd2 (F d r) m i)) in
  match n_capa S with None => x | Some k => x / auxbc k ix end.
Definition interior (ix : list Z) : Prop := length ix = 2%nat /\ forall d, (d < 2)%nat -> (g <= get d ix < g + mxd d)%Z.

Lemma base_2d d ix : (d < 2)%nat -> length ix = 2%nat -> put (1 - d) (get (1 - d) ix - g + 1 + g - 1)%Z [0; 0]%Z = put d 0 ix.
Proof.
  intros Hd HL. destruct ix as [|x [|y [|]]]; try discriminate. destruct d as [|[|d]]; [| |lia]; cbn [Nat.sub put get].
  - replace (y - g + 1 + g - 1)%Z with y by lia. reflexivity.
  - replace (x - g + 1 + g - 1)%Z with x by lia. reflexivity.
Qed.
Lemma flux_same d r : qadd (F d r) = qadd (line_flux undef S d (put (1 - d) (r + g - 1)%Z [0; 0]%Z) auxbc qold) /\
  fadd (F d r) = fadd (line_flux undef S d (put (1 - d) (r + g - 1)%Z [0; 0]%Z) auxbc qold) /\
  cfl1d (F d r) = cfl1d (line_flux undef S d (put (1 - d) (r + g - 1)%Z [0; 0]%Z) auxbc qold).
Proof.
  unfold t_flux, line_flux, t_row. cbv zeta. unfold flux2. change (Z.leb (-1) 0) with true. destruct (Z.leb trans 0); repeat split; reflexivity.
Qed.

Lemma t_sum d m ix : (d < 2)%nat -> interior ix ->
  zsum 0 (Z.to_nat (mxd (1 - d) + 2)) (fun j => t_change S d (F d j) auxbc j 0 m ix) ==
  (line_change S d (line_flux undef S d (put d 0 ix) auxbc qold) (slice (n_ng S) d (put d 0 ix) auxbc) 0 m (get d ix - g + 1)) + t_trans d m ix.
Proof.
  intros Hd [HL HI]. pose proof (HI d Hd) as H1. pose proof (HI (1 - d)%nat ltac:(lia)) as H2.
  set (i := (get d ix - g + 1)%Z). set (r := (get (1 - d) ix - g + 1)%Z).
  rewrite (zsum_three 0 _ r); [|unfold r; lia|unfold r; lia|].
  - unfold t_change. fold i r. rewrite in_slice_true by (unfold i; lia). rewrite Z.eqb_refl.
    replace (Z.eqb r (r - 1)) with false by lia. replace (Z.eqb r (r - 1 - 1)) with false by lia. replace (Z.eqb r (r - 1 + 1)) with true by lia.
    replace (Z.eqb r (r + 1)) with false by lia. replace (Z.eqb r (r + 1 - 1)) with true by lia.
    destruct (flux_same d r) as (E1 & E2 & _).
    assert (EB : put (1 - d) (r + g - 1)%Z [0; 0]%Z = put d 0 ix) by (unfold r; apply base_2d; assumption). rewrite EB in E1, E2. rewrite E1, E2.
    unfold t_trans. fold i r. cbv zeta. unfold line_change. cbv zeta. destruct (n_capa S) as [k|]; [|ring].
    unfold slice. rewrite put_put. replace (i + g - 1)%Z with (get d ix) by (unfold i; lia). rewrite put_get. unfold Qdiv. ring.
  - intros j N1 N2 N3. unfold t_change. fold i r. rewrite in_slice_true by (unfold i; lia).
    replace (Z.eqb r j) with false by lia. replace (Z.eqb r (j - 1)) with false by lia. replace (Z.eqb r (j + 1)) with false by lia. reflexivity.
Qed.

Lemma line_change_add d G a v m i : line_change S d G a v m i == v + line_change S d G a 0 m i.
Proof. unfold line_change. destruct (n_capa S); ring. Qed.

Hypothesis HL : length (n_bcs S) = 2%nat.
Hypothesis Hn : Forall (fun n => 0 <= n)%Z ns.
Lemma interior_swept ext d ix : (0 <= ext)%Z -> (d < 2)%nat -> interior ix -> swept S ext d ix = true.
Proof.
  intros Hx Hd [HLx HI]. unfold swept. rewrite andb_true_iff, existsb_exists. split.
  - exists (put d 0 ix). split; [|apply zlist_eqb_refl]. apply lines_in; [exact Hx|exact Hn|]. rewrite put_length, map_length. split; [lia|].
    intros j Hj. destruct (Nat.eqb_spec j d) as [E|Hne]; [subst j; apply get_put; lia|]. rewrite get_put_other by lia. specialize (HI j ltac:(lia)). lia.
  - specialize (HI d Hd). apply in_slice_true. lia.
Qed.

(** An interior cell changes by what an x-sweep and a y-sweep from the old data would do, plus the transverse corrections. *)
Theorem step2_value ext m ix : (0 <= ext)%Z -> interior ix ->
  fst (step2 undef S trans auxbc qold qold) m ix ==
  qold m ix + (sweep_value undef S ext 0 auxbc qold (qold m ix) m ix - qold m ix) + (sweep_value undef S ext 1 auxbc qold (qold m ix) m ix - qold m ix)
  + t_trans 0 m ix + t_trans 1 m ix.
Proof.
  intros Hx HI. unfold step2. rewrite t_sweep_sum, t_sweep_sum. cbn [fst]. rewrite (t_sum 1) by (assumption || lia). rewrite (t_sum 0) by (assumption || lia).
  unfold sweep_value. rewrite !interior_swept by (assumption || lia).
  rewrite (line_change_add 0 _ _ (qold m ix)), (line_change_add 1 _ _ (qold m ix)). ring.
Qed.

(** The Courant number *)
Lemma t_sweep_cfl d st : snd (t_sweep undef S trans d auxbc qold st) =
  fold_left (fun c j => pymax c (cfl1d (line_flux undef S d (put (1 - d) (j + g - 1)%Z [0; 0]%Z) auxbc qold))) (zrange 0 (Z.to_nat (mxd (1 - d) + 2))) (snd st).
Proof.
  unfold t_sweep. generalize (zrange 0 (Z.to_nat (mxd (1 - d) + 2))) as l. intros l. revert st. induction l as [|j l IH]; intros st; cbn [fold_left]; [reflexivity|].
  rewrite IH. cbn [t_body snd]. destruct (flux_same d j) as (_ & _ & ->). reflexivity.
Qed.
End U.
