(** Proofs about parallel runs in more dimensions, part 6: boxes, Courant numbers and steps of all processes. *)
From Verif Require Import Base TimeModel BCModel BCSpec BCProofs LimiterModel LimiterProofs Classic1DModel Classic1DSpec
  Classic1DProofs Classic1DProofs2 GeometrySpec ParallelModel ParallelSpec ParallelProofs ParallelProofs2 ParallelProofs3 SweepModel SweepSpec SweepProofs SweepProofs2 SweepProofs3
  UnsplitModel UnsplitSpec UnsplitProofs3 Unsplit3Model Unsplit3Spec Unsplit3Proofs Unsplit3Proofs2 Unsplit3Proofs3
  Par2Model Par2Spec Par2Proofs Par2Proofs2 Par2Proofs3 Par2Proofs4 Par2Proofs5.
Import BCSpec.

(** ** Boxes *)
Lemma combos_in {A} : forall css (l : list A), In l (combos css) <-> Forall2 (fun x cs => In x cs) l css.
Proof.
  induction css as [|cs css IH]; intro l; cbn [combos].
  - split; [intros [<-|[]]; constructor|intro H; inversion H; left; reflexivity].
  - rewrite in_flat_map. split.
    + intros (c & Hc & H). apply in_map_iff in H. destruct H as (l' & <- & H). constructor; [exact Hc|apply IH; exact H].
    + intro H. inversion H as [|c l' ? ? Hc H']; subst. exists c. split; [exact Hc|]. apply in_map. apply IH. exact H'.
Qed.
Lemma combos_cover Ds ng css : mdecomposed ng Ds css -> forall ix, in_domain Ds ix ->
  exists bs, In bs (combos css) /\ Forall2 (fun b i => (fst b <= i < snd b)%Z) bs ix.
Proof.
  intro H. induction H as [|D cs Ds css HD H IH]; intros ix Hix.
  - destruct ix; [|contradiction]. exists []. split; [left; reflexivity|constructor].
  - destruct ix as [|i ix]; [contradiction|]. destruct Hix as [Hi Hix]. destruct (IH ix Hix) as (bs & Hb & F).
    destruct (cuts_cover cs 0 (ncells D) i (proj1 HD) Hi) as (b & Hin & Hb1). exists (b :: bs). split; [|constructor; assumption].
    apply combos_in. constructor; [exact Hin|]. apply combos_in. exact Hb.
Qed.
Lemma combos_fit ng has_aux neq Ds css : (1 <= ng)%nat -> Forall (fit_dim ng has_aux neq) Ds -> mdecomposed ng Ds css ->
  forall bs, In bs (combos css) -> Forall2 (fit_box ng has_aux neq) Ds bs.
Proof.
  intros Hg HF H. induction H as [|D cs Ds css HD H IH]; intros bs Hb; apply combos_in in Hb; inversion Hb as [|b bs' ? ? Hin Hb']; subst; constructor.
  - apply Forall_inv in HF. destruct HF as (_ & _ & Hr & Q1 & Q2 & _ & HA). apply decomposed_box with (bs := cs); try assumption.
    intro Ha. destruct (HA Ha) as (A1 & A2 & _). auto.
  - apply IH; [apply Forall_inv_tail in HF; exact HF|]. apply combos_in. exact Hb'.
Qed.
Lemma fit_box_nth ng has_aux neq : forall Ds bs, Forall2 (fit_box ng has_aux neq) Ds bs -> length bs = length Ds /\
  forall j, (j < length bs)%nat -> (0 <= fst (nth j bs (0, 0)) /\ fst (nth j bs (0, 0)) < snd (nth j bs (0, 0)) /\ snd (nth j bs (0, 0)) <= nth j (map ncells Ds) 0)%Z.
Proof.
  intros Ds bs H. induction H as [|D b Ds bs HD H [IH1 IH2]]; [split; [reflexivity|intros j Hj; cbn [length] in Hj; lia]|].
  split; [cbn [length]; lia|]. intros [|j] Hj; cbn [length] in Hj; cbn [nth map].
  - destruct HD as (_ & _ & _ & _ & HD & _). lia.
  - apply IH2. lia.
Qed.
Lemma holds_in : forall bs ix, holds bs ix = true <-> Forall2 (fun b i => (fst b <= i < snd b)%Z) bs ix.
Proof.
  induction bs as [|b bs IH]; intros [|i ix]; cbn [holds].
  - split; [constructor|reflexivity].
  - split; [discriminate|intro H; inversion H].
  - split; [discriminate|intro H; inversion H].
  - rewrite andb_true_iff, IH. split.
    + intros [H1 H2]. constructor; [unfold in_slice in H1; lia|exact H2].
    + intro H. inversion H; subst. split; [apply in_slice_true; assumption|assumption].
Qed.
Lemma moved_relative g : forall bs ix, length ix = length bs -> moved bs (shift g (relative bs ix)) = shift g ix.
Proof.
  induction bs as [|b bs IH]; intros [|i ix] H; cbn [length] in H; try lia; [reflexivity|].
  unfold moved, relative, shift. cbn [combine map fst snd]. apply f_equal2; [lia|]. apply IH. lia.
Qed.
Lemma relative_length bs ix : length ix = length bs -> length (relative bs ix) = length bs.
Proof. intro H. unfold relative. rewrite map_length, combine_length, H. apply Nat.min_id. Qed.
Lemma get_relative : forall bs ix j, length ix = length bs -> (j < length bs)%nat -> get j (relative bs ix) = (get j ix - start bs j)%Z.
Proof.
  induction bs as [|b bs IH]; intros [|i ix] [|j] HL Hj; cbn [length] in *; try lia; [reflexivity|].
  unfold relative, start. cbn [combine map get nth]. apply IH; lia.
Qed.
Lemma forall2_get (P : Z * Z -> Z -> Prop) : forall bs ix, Forall2 P bs ix -> forall j, (j < length bs)%nat -> P (nth j bs (0, 0)%Z) (get j ix).
Proof.
  intros bs ix H. induction H as [|b i bs ix Hb H IH]; intros j Hj; cbn [length] in Hj; [lia|].
  destruct j as [|j]; [exact Hb|]. cbn [nth get]. apply IH. lia.
Qed.

(** ** Ghost cells *)
Lemma sources_in ng : forall Ds pos (lo hi : dimbc -> bctype), Forall (fun D => standard (lo D) /\ standard (hi D) /\ wide ng (lo D) (hi D) (ncells D)) Ds -> in_box ng Ds pos ->
  in_domain Ds (map (fun p => source_cell (lo (fst p)) (hi (fst p)) (ncells (fst p)) (snd p)) (combine Ds pos)).
Proof.
  intros Ds. induction Ds as [|D Ds IH]; intros [|i pos] lo hi HF HB; try contradiction; [exact I|].
  destruct HB as [Hi HB]. cbn [combine map fst snd in_domain]. destruct (Forall_inv HF) as (S1 & S2 & W). split.
  - eapply source_in; eassumption.
  - apply IH; [exact (Forall_inv_tail HF)|exact HB].
Qed.
Lemma flips_same (P : dimbc * Z -> bool) (u v : Q) : u = v -> forall l, fold_right (fun p w => if P p then Qopp w else w) u l = fold_right (fun p w => if P p then Qopp w else w) v l.
Proof. intros ->. reflexivity. Qed.

Section B.
Variable S : msettings.
Variable css : list (list (Z * Z)).
Notation neq := (n_neq S).
Notation g := (Z.of_nat (n_ng S)).
Notation ns := (map ncells (n_bcs S)).
Notation has_aux := (Nat.ltb 0 (n_naux S)).
Hypothesis Hg : (1 <= n_ng S)%nat.
Hypothesis HF : Forall (fit_dim (n_ng S) has_aux (Z.of_nat neq)) (n_bcs S).
Hypothesis HD : mdecomposed (n_ng S) (n_bcs S) css.

Lemma boxes_fit bs : In bs (combos css) -> Forall2 (fit_box (n_ng S) has_aux (Z.of_nat neq)) (n_bcs S) bs.
Proof. apply combos_fit; assumption. Qed.
Lemma in_box_moved bs ix : Forall2 (fit_box (n_ng S) has_aux (Z.of_nat neq)) (n_bcs S) bs -> box (mlocal S bs) g 0 ix ->
  exists pos, ix = shift g pos /\ in_box (n_ng S) (local_bcs (n_bcs S) bs) pos /\ in_box (n_ng S) (n_bcs S) (global_pos bs pos) /\ shift g (global_pos bs pos) = moved bs ix.
Proof.
  intros HB [HL B]. destruct (fit_box_nth _ _ _ _ _ HB) as [Lb Nb]. exists (shift (- g) ix).
  assert (E : shift g (shift (- g) ix) = ix) by apply shift_fwd.
  assert (IB : in_box (n_ng S) (local_bcs (n_bcs S) bs) (shift (- g) ix)).
  { apply in_box_get. split; [rewrite shift_length; exact HL|]. intros j Hj. change (map ncells (local_bcs (n_bcs S) bs)) with (map ncells (n_bcs (mlocal S bs))) in *.
    rewrite get_shift by lia. specialize (B j Hj). replace (Nat.ltb j 0) with false in B by reflexivity. cbn [mlocal n_ng] in B. change (map ncells (local_bcs (n_bcs S) bs)) with (map ncells (n_bcs (mlocal S bs))) in *. lia. }
  split; [symmetry; exact E|]. split; [exact IB|]. clear B E.
  assert (Hlen : length ix = length bs) by (rewrite HL; apply (T_length S bs Hg Lb)). clear HL.
  revert ix Hlen IB. clear -HB. induction HB as [|D b Ds bs HD0 HB IH]; intros [|i ix] Hlen IB; cbn [length] in Hlen; try lia.
  - split; [exact I|reflexivity].
  - cbn [local_bcs combine map shift in_box local_bc ncells fst snd] in IB. destruct IB as [Hi IB]. destruct (IH ix ltac:(lia) IB) as [I1 I2].
    destruct HD0 as (_ & _ & _ & _ & HD0 & _). cbn [shift map global_pos combine in_box fst snd moved]. split.
    + split; [lia|exact I1].
    + unfold moved. cbn [combine map fst snd]. apply f_equal2; [lia|exact I2].
Qed.
(** The ghosted arrays of a process are parts of those of a serial run whose cells are the same. *)
Lemma ghost_windows q aux q' aux' qbc0 auxbc0 auxbc0' bs : same_mcells neq (n_bcs S) q q' -> same_mcells (n_naux S) (n_bcs S) aux aux' -> In bs (combos css) ->
  exists qbc auxbc qbc' auxbc',
  apply_bcs Q Qopp (n_ng S) has_aux (n_funs S) (Z.of_nat neq) (n_bcs S) q aux qbc0 auxbc0 = Ok (qbc, auxbc) /\
  par_apply_bcs Qopp (n_ng S) has_aux (n_funs S) (Z.of_nat neq) (n_bcs S) bs q' aux' auxbc0' = Ok (qbc', auxbc') /\
  window S bs neq g 0 qbc' qbc /\ window S bs (n_naux S) g 0 auxbc' auxbc.
Proof.
  intros Sq Sx Hb. pose proof (boxes_fit bs Hb) as HB.
  destruct (apply_bcs_at Q Qopp (n_ng S) has_aux (n_funs S) (Z.of_nat neq) (n_bcs S) q aux qbc0 auxbc0 Hg HF) as (qb & xb & E & A & B & _).
  destruct (par_bcs_at Q Qopp (n_ng S) has_aux (n_funs S) (Z.of_nat neq) (n_bcs S) bs q' aux' auxbc0' Hg HB) as (qb' & xb' & E' & A' & B' & _).
  exists qb, xb, qb', xb'. split; [exact E|]. split; [exact E'|]. split.
  - intros m ix Hm Bx. destruct (in_box_moved bs ix HB Bx) as (pos & -> & I1 & I2 & I3). rewrite <- I3, (A' m pos I1), (A m _ I2).
    unfold q_ghost_value. apply flips_same. symmetry. apply Sq; [exact Hm|]. apply (sources_in (n_ng S)); [|exact I2].
    clear -HF. eapply Forall_impl; [|exact HF]. intros D (_ & _ & _ & Q1 & Q2 & W & _). auto.
  - intros m ix Hm Bx. assert (Ha : has_aux = true) by (apply Nat.ltb_lt; lia). destruct (in_box_moved bs ix HB Bx) as (pos & -> & I1 & I2 & I3). rewrite <- I3, (B' Ha m pos I1), (B Ha m _ I2).
    unfold aux_ghost_value. symmetry. apply Sx; [exact Hm|]. apply (sources_in (n_ng S) (n_bcs S) (global_pos bs pos) a_lo a_hi); [|exact I2].
    clear -HF Ha. eapply Forall_impl; [|exact HF]. intros D (_ & _ & _ & _ & _ & _ & W). destruct (W Ha) as (W1 & W2 & W3). auto.
Qed.

(** ** Courant numbers *)
Lemma face_moved bs d ix : Forall2 (fit_box (n_ng S) has_aux (Z.of_nat neq)) (n_bcs S) bs -> face1 (mlocal S bs) d ix -> face1 S d (moved bs ix).
Proof.
  intros HB [HL F]. destruct (fit_box_nth _ _ _ _ _ HB) as [Lb Nb]. rewrite (T_bcs_length S bs Hg Lb) in *.
  split; [rewrite moved_length by exact HL; exact Lb|]. intros j Hj. cbv zeta. rewrite <- Lb in Hj. specialize (F j Hj). cbv zeta in F. cbn [mlocal n_ng] in F. change (map ncells (local_bcs (n_bcs S) bs)) with (map ncells (n_bcs (mlocal S bs))) in F.
  pose proof (fits S bs Hg Lb Nb j Hj). rewrite get_moved by assumption. destruct (Nat.eqb j d); lia.
Qed.
Lemma moved_rel bs : forall ix, length ix = length bs -> moved bs (relative bs ix) = ix.
Proof.
  induction bs as [|b bs0 IH]; intros [|i ix] H; cbn [length] in H; try lia; [reflexivity|].
  unfold moved, relative. cbn [combine map fst snd]. apply f_equal2; [lia|]. apply IH. lia.
Qed.
Lemma clamp_in : forall Ds ix, length ix = length Ds -> Forall (fun D => 1 <= ncells D)%Z Ds ->
  in_domain Ds (map (fun p => Z.max 0 (Z.min (ncells (fst p) - 1) (snd p - g))) (combine Ds ix)).
Proof.
  induction Ds as [|D Ds IH]; intros [|i ix] H HP; cbn [length] in H; try lia; [exact I|]. cbn [combine map in_domain fst snd].
  pose proof (Forall_inv HP) as HP0. cbv beta in HP0. split; [lia|]. apply IH; [lia|exact (Forall_inv_tail HP)].
Qed.
Lemma get_clamp : forall Ds ix j, length ix = length Ds -> (j < length Ds)%nat ->
  get j (map (fun p => Z.max 0 (Z.min (ncells (fst p) - 1) (snd p - g))) (combine Ds ix)) = Z.max 0 (Z.min (nth j (map ncells Ds) 0%Z - 1) (get j ix - g)).
Proof.
  induction Ds as [|D Ds IH]; intros [|i ix] [|j] H Hj; cbn [length] in *; try lia; [reflexivity|]. cbn [combine map get nth]. apply IH; lia.
Qed.
Lemma face_cover d ix : (d < length (n_bcs S))%nat -> face1 S d ix -> exists bs ix', In bs (combos css) /\ face1 (mlocal S bs) d ix' /\ moved bs ix' = ix.
Proof.
  intros Hd [HL F].
  assert (HP : Forall (fun D => 1 <= ncells D)%Z (n_bcs S)) by (eapply Forall_impl; [|exact HF]; intros D (_ & _ & _ & _ & _ & (_ & _ & W) & _); exact W).
  destruct (combos_cover _ _ _ HD _ (clamp_in (n_bcs S) ix HL HP)) as (bs & Hb & C).
  destruct (fit_box_nth _ _ _ _ _ (boxes_fit bs Hb)) as [Lb Nb]. exists bs, (relative bs ix). split; [exact Hb|]. split; [|apply moved_rel; lia].
  split; [rewrite relative_length, (T_bcs_length S bs Hg Lb); lia|]. intros j Hj. rewrite (T_bcs_length S bs Hg Lb) in Hj. cbv zeta. cbn [mlocal n_ng]. change (map ncells (local_bcs (n_bcs S) bs)) with (map ncells (n_bcs (mlocal S bs))).
  rewrite get_relative by lia. rewrite (T_nth S bs Hg Lb j Hj). pose proof (forall2_get _ _ _ C j Hj) as K. cbv beta in K. rewrite get_clamp in K by lia.
  specialize (F j ltac:(lia)). cbv zeta in F. specialize (Nb j Hj). unfold start. destruct (Nat.eqb j d); lia.
Qed.
Hypothesis Hg2 : (2 <= n_ng S)%nat.
Hypothesis Hk : mcapa_in_aux S.
Lemma crossed_moved bs aux' aux x' x d ix p v : Forall2 (fit_box (n_ng S) has_aux (Z.of_nat neq)) (n_bcs S) bs ->
  window S bs neq g 0 x' x -> window S bs (n_naux S) g 0 aux' aux -> (d < length (n_bcs S))%nat -> face1 (mlocal S bs) d ix ->
  crossed (mlocal S bs) d aux' x' ix p v <-> crossed S d aux x (moved bs ix) p v.
Proof.
  intros HB Wx Wa Hd [HL F]. destruct (fit_box_nth _ _ _ _ _ HB) as [Lb Nb]. rewrite (T_bcs_length S bs Hg Lb) in *.
  assert (B0 : forall v0, (g - 1 <= v0 <= g + nth d (map ncells (n_bcs (mlocal S bs))) 0)%Z -> box (mlocal S bs) g 0 (put d v0 ix)).
  { intros v0 Hv. split; [rewrite put_length, (T_length S bs Hg Lb); exact HL|]. intros j Hj. rewrite (T_length S bs Hg Lb) in Hj.
    replace (Nat.ltb j 0) with false by reflexivity. specialize (F j Hj). cbv zeta in F. cbn [mlocal n_ng] in F |- *.
    change (map ncells (local_bcs (n_bcs S) bs)) with (map ncells (n_bcs (mlocal S bs))) in *.
    destruct (Nat.eqb_spec j d) as [E|N]; [subst j; rewrite get_put by lia; lia|rewrite get_put_other by lia; lia]. }
  assert (Fd := F d ltac:(lia)). cbv zeta in Fd. rewrite Nat.eqb_refl in Fd. cbn [mlocal n_ng] in Fd. change (map ncells (local_bcs (n_bcs S) bs)) with (map ncells (n_bcs (mlocal S bs))) in Fd.
  assert (Bi : box (mlocal S bs) g 0 ix) by (rewrite <- (put_get d ix); apply B0; lia).
  assert (Bl : box (mlocal S bs) g 0 (lower d ix)) by (unfold lower; apply B0; lia).
  assert (El : moved bs (lower d ix) = lower d (moved bs ix)).
  { unfold lower. rewrite moved_put by lia. rewrite get_moved by lia. f_equal. lia. }
  assert (Vx : forall y, box (mlocal S bs) g 0 y -> cell_vec neq x' y = cell_vec neq x (moved bs y)).
  { intros y By. unfold cell_vec. apply vec_ext. intros m Hm. apply Wx; assumption. }
  assert (Va : forall y, box (mlocal S bs) g 0 y -> cell_vec (n_naux S) aux' y = cell_vec (n_naux S) aux (moved bs y)).
  { intros y By. unfold cell_vec. apply vec_ext. intros m Hm. apply Wa; assumption. }
  assert (Rx : forall y, box (mlocal S bs) g 0 y -> cell_ratio (mlocal S bs) d aux' y = cell_ratio S d aux (moved bs y)).
  { intros y By. unfold cell_ratio. cbn [mlocal n_capa n_dt n_delta]. destruct (n_capa S) as [c|] eqn:Ec; [|reflexivity]. rewrite (Wa c y (Hk c Ec) By). reflexivity. }
  assert (SP : face_speed (mlocal S bs) d aux' x' ix p = face_speed S d aux x (moved bs ix) p).
  { unfold face_speed. cbn [mlocal n_rpn n_neq n_naux]. rewrite (Vx ix Bi), (Vx _ Bl), (Va ix Bi), (Va _ Bl), El. reflexivity. }
  unfold crossed. rewrite SP, (Rx ix Bi), (Rx _ Bl), El. reflexivity.
Qed.
End B.
