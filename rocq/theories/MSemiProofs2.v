(** Proofs about the SharpClaw semi-discretisation in two and three dimensions, part 2: slices and the
    one-dimensional solver. *)
From Verif Require Import Base BCModel BCSpec BCProofs LimiterModel Classic1DModel Classic1DSpec Classic1DProofs
  Classic1DProofs2 ParallelProofs2 SharpModel SharpSpec MultiModel WenoModel WenoProofs SemiModel SemiSpec SemiProofs SemiProps
  SweepModel SweepSpec SweepProofs SweepProofs3 MSemiModel MSemiSpec MSemiProofs.

Lemma shift_put g d v l : shift g (put d v l) = put d (v + g)%Z (shift g l).
Proof. revert d. induction l as [|x l IH]; intros [|d]; cbn [put shift map]; try reflexivity. f_equal. apply IH. Qed.

Lemma dims_len S d D : In (d, D) (dims S) -> (d < length (n_bcs S))%nat.
Proof. intros H. apply dims_nth in H. apply nth_error_Some. congruence. Qed.
Lemma dims_domain S ix : in_domain (n_bcs S) ix <-> length ix = length (n_bcs S) /\ forall j D, In (j, D) (dims S) -> (0 <= get j ix < ncells D)%Z.
Proof.
  rewrite in_domain_get, map_length. split; intros [HL H]; (split; [exact HL|]).
  - intros j D Hj. pose proof (dims_len S j D Hj) as Hl. specialize (H j Hl). apply dims_nth in Hj.
    rewrite (nth_indep (map ncells (n_bcs S)) 0%Z (ncells D)) in H by (rewrite map_length; exact Hl).
    rewrite (map_nth ncells) in H. rewrite (nth_error_nth (n_bcs S) j D Hj) in H. exact H.
  - intros j Hj. destruct (nth_error (n_bcs S) j) as [Dj|] eqn:Ej; [|apply nth_error_None in Ej; lia].
    rewrite (nth_indep (map ncells (n_bcs S)) 0%Z (ncells Dj)) by (rewrite map_length; exact Hj).
    rewrite (map_nth ncells). rewrite (nth_error_nth (n_bcs S) j Dj Ej). apply H. apply dims_nth. exact Ej.
Qed.

Section A.
Context {W : Type}.
Variable recon : nat -> W -> (Z -> Z -> Q) -> (Z -> Z -> Q) -> W * edges.
Variable tfluct : option (nat -> list Q -> list Q -> list Q -> list Q -> Z -> Q).
Variable S : msettings.
Variables q aux auxbc qbc : arr Q.
Hypothesis Hg : (1 <= n_ng S)%nat.
Hypothesis Hk : mcapa_in_aux S.
Hypothesis HD : determined S recon.
Notation g := (Z.of_nat (n_ng S)).
Notation hasx := (Nat.ltb 0 (n_naux S)).
Hypothesis HF : Forall (fit_dim (n_ng S) hasx (Z.of_nat (n_neq S))) (n_bcs S).
Hypothesis A : forall c pos, in_box (n_ng S) (n_bcs S) pos -> qbc c (shift g pos) = q_ghost_value Q Qopp (n_bcs S) q c pos.
Hypothesis B : hasx = true -> forall c pos, in_box (n_ng S) (n_bcs S) pos -> auxbc c (shift g pos) = aux_ghost_value Q (n_bcs S) aux c pos.

Lemma dim_fit d D : In (d, D) (dims S) -> fit_dim (n_ng S) hasx (Z.of_nat (n_neq S)) D.
Proof. intros H. rewrite Forall_forall in HF. apply HF. apply dims_nth in H. apply nth_error_In in H. exact H. Qed.

(** The cell lies in the ghosted array in all dimensions but d. *)
Definition beside (d : nat) (pos : list Z) : Prop :=
  length pos = length (n_bcs S) /\ forall j D, In (j, D) (dims S) -> j <> d -> (- g <= get j pos < ncells D + g)%Z.
Lemma beside_box d D pos i : In (d, D) (dims S) -> beside d pos -> (- g <= i < ncells D + g)%Z -> in_box (n_ng S) (n_bcs S) (put d i pos).
Proof.
  intros Hd [HL HB] Hi. apply in_box_get. rewrite put_length, map_length. split; [exact HL|]. intros j Hj.
  destruct (nth_error (n_bcs S) j) as [Dj|] eqn:Ej; [|apply nth_error_None in Ej; lia].
  rewrite (nth_indep (map ncells (n_bcs S)) 0%Z (ncells Dj)) by (rewrite map_length; exact Hj).
  rewrite (map_nth ncells). rewrite (nth_error_nth (n_bcs S) j Dj Ej). apply dims_nth in Ej.
  destruct (Nat.eq_dec d j) as [E|N].
  - subst j. rewrite get_put by lia. apply dims_nth in Ej. apply dims_nth in Hd. replace Dj with D by congruence. exact Hi.
  - rewrite get_put_other by exact N. apply (HB j Dj Ej). congruence.
Qed.

Lemma along_line w w' d D pos q2 aux2 qb0 ab0 : In (d, D) (dims S) -> beside d pos ->
  (forall c i, (0 <= i < ncells D)%Z -> q2 c [i] = q_ghost_value Q Qopp (n_bcs S) q c (put d i pos)) ->
  (hasx = true -> forall c i, (0 <= i < ncells D)%Z -> aux2 c [i] = aux_ghost_value Q (n_bcs S) aux c (put d i pos)) ->
  exists d1 c1, dq_hyperbolic (FRecon (fun q a => snd (recon d w q a)) (option_map (fun tf => tf d) tfluct)) (line_settings S d D) q2 aux2 qb0 ab0 = DQ d1 c1 /\
  (forall m i, (0 <= i < ncells D)%Z -> d1 m i = fst (at_line recon tfluct S auxbc qbc w' d D (put d 0 (shift g pos))) m (i + 1)%Z) /\
  (n_capa S = None -> c1 = snd (at_line recon tfluct S auxbc qbc w' d D (put d 0 (shift g pos)))).
Proof.
  intros Hd HB Hq Ha. pose proof (dim_fit d D Hd) as Hf.
  destruct (semi_ok (FRecon (fun q a => snd (recon d w q a)) (option_map (fun tf => tf d) tfluct)) (line_settings S d D) q2 aux2 qb0 ab0)
    as (qb1 & ab1 & Q1 & A1 & E); [exact Hg|exact Hf|].
  rewrite E. clear E. cbn [line_settings c_ng c_bc] in *. cbv zeta.
  destruct (f_semi _ _ _ _) as [f1 c1] eqn:Ef. exists (fun m i => f1 m (i + 1)%Z), c1. split; [reflexivity|].
  pose proof (proj1 (dims_nth S d D) Hd) as Hn.
  assert (HL : (d < length pos)%nat).
  { destruct HB as [HL _]. rewrite HL. apply nth_error_Some. congruence. }
  assert (SL : forall a m i, slice (n_ng S) d (put d 0 (shift g pos)) a m i = a m (shift g (put d (i - 1)%Z pos))).
  { intros a m i. unfold slice. rewrite shift_put, !put_put. do 2 f_equal. lia. }
  assert (EQ : forall m i, (1 - g <= i <= ncells D + g)%Z -> qb1 m (i + g - 1)%Z = slice (n_ng S) d (put d 0 (shift g pos)) qbc m i).
  { intros m i Hi. rewrite SL, A by (apply beside_box with (D := D); try assumption; lia).
    replace (i + g - 1)%Z with (i - 1 + g)%Z by lia. rewrite Q1 by lia. rewrite ghost_one.
    rewrite (ghost_line (n_ng S) hasx (Z.of_nat (n_neq S)) d (n_bcs S) D q m (put d (i - 1)%Z pos) Hn Hf) by (rewrite ?put_length, ?get_put by lia; (exact (proj1 HB) || lia)).
    rewrite get_put by lia. rewrite put_put. f_equal. apply Hq. apply (src_in _ _ _ D (i - 1) Hf). lia. }
  assert (EA : hasx = true -> forall m i, (1 - g <= i <= ncells D + g)%Z -> ab1 m (i + g - 1)%Z = slice (n_ng S) d (put d 0 (shift g pos)) auxbc m i).
  { intros Hx m i Hi. rewrite SL, (B Hx) by (apply beside_box with (D := D); try assumption; lia).
    replace (i + g - 1)%Z with (i - 1 + g)%Z by lia. rewrite (A1 Hx) by lia.
    rewrite (aux_line (n_ng S) hasx (Z.of_nat (n_neq S)) d (n_bcs S) D aux m (put d (i - 1)%Z pos) Hn Hf Hx) by (rewrite ?put_length, ?get_put by lia; (exact (proj1 HB) || lia)).
    rewrite get_put by lia. rewrite put_put. unfold aux_ghost_value at 1. cbn [combine map fst snd]. apply (Ha Hx).
    destruct Hf as (_ & _ & _ & _ & _ & _ & HX). destruct (HX Hx) as (S1 & S2 & Wd). apply (source_in (n_ng S)); try assumption. lia. }
  assert (EA' : forall m i, (0 <= m < Z.of_nat (n_naux S))%Z -> (1 - g <= i <= ncells D + g)%Z -> ab1 m (i + g - 1)%Z = slice (n_ng S) d (put d 0 (shift g pos)) auxbc m i).
  { intros m i Hm Hi. apply EA; [apply Nat.ltb_lt; lia|exact Hi]. }
  pose proof (f_semi_ext (option_map (fun tf => tf d) tfluct) (slice_settings S d D)
    (snd (recon d w (fun m i => qb1 m (i + g - 1)%Z) (fun m i => ab1 m (i + g - 1)%Z)))
    (snd (recon d w' (slice (n_ng S) d (put d 0 (shift g pos)) qbc) (slice (n_ng S) d (put d 0 (shift g pos)) auxbc)))
    (fun m i => ab1 m (i + g - 1)%Z) (slice (n_ng S) d (put d 0 (shift g pos)) auxbc) Hg Hk EA') as X.
  cbn [slice_settings c_neq c_bc c_capa] in X. destruct X as [X1 X2].
  { intros m Hm. apply (HD d D Hd); [|exact EA'|exact Hm]. intros m' i _ Hi. apply EQ. exact Hi. }
  change (f_semi (option_map (fun tf => tf d) tfluct) (slice_settings S d D)
    (snd (recon d w (fun m i => qb1 m (i + g - 1)%Z) (fun m i => ab1 m (i + g - 1)%Z))) (fun m i => ab1 m (i + g - 1)%Z) = (f1, c1)) in Ef.
  unfold at_line. split.
  - intros m i Hi. rewrite <- X1 by lia. rewrite Ef. reflexivity.
  - intros HN. rewrite <- (X2 HN). rewrite Ef. reflexivity.
Qed.

Lemma domain_beside d ix : in_domain (n_bcs S) ix -> beside d ix.
Proof. intros H. apply dims_domain in H. destruct H as [HL H]. split; [exact HL|]. intros j D Hj _. specialize (H j D Hj). lia. Qed.
Lemma domain_put d D i ix : In (d, D) (dims S) -> in_domain (n_bcs S) ix -> (0 <= i < ncells D)%Z -> in_domain (n_bcs S) (put d i ix).
Proof.
  intros Hd H Hi. pose proof (dims_len S d D Hd) as Hl. apply dims_domain in H. destruct H as [HL H]. apply dims_domain. rewrite put_length. split; [exact HL|].
  intros j Dj Hj. destruct (Nat.eq_dec d j) as [E|N].
  - subst j. rewrite get_put by lia. apply dims_nth in Hd, Hj. replace Dj with D by congruence. exact Hi.
  - rewrite get_put_other by exact N. apply H. exact Hj.
Qed.

(** Lines of the grid itself *)
Lemma along_grid w w' d D ix qb0 ab0 : In (d, D) (dims S) -> in_domain (n_bcs S) ix ->
  exists d1 c1, along recon tfluct S w q aux qb0 ab0 (d, D) ix = DQ d1 c1 /\
  (forall m i, (0 <= i < ncells D)%Z -> d1 m i = fst (at_line recon tfluct S auxbc qbc w' d D (put d 0 (shift g ix))) m (i + 1)%Z) /\
  (n_capa S = None -> c1 = snd (at_line recon tfluct S auxbc qbc w' d D (put d 0 (shift g ix)))).
Proof.
  intros Hd Hx. apply along_line; [exact Hd|apply domain_beside; exact Hx| |].
  - intros c i Hi. unfold line. cbn [hd]. rewrite put_put. symmetry. apply (ghost_value_interior Q Qopp). apply (domain_put d D); assumption.
  - intros HX c i Hi. unfold line. cbn [hd]. rewrite put_put. unfold aux_ghost_value.
    pose proof (domain_put d D i ix Hd Hx Hi) as Hp. revert Hp. generalize (put d i ix) as pos. generalize (n_bcs S) as Ds. clear.
    intros Ds pos Hp. f_equal. revert Ds Hp. induction pos as [|x pos IH]; intros [|D Ds] Hp; cbn [in_domain] in Hp; try contradiction; [reflexivity|].
    destruct Hp as [Hx Hp]. cbn [combine map fst snd]. f_equal; [|apply IH; exact Hp].
    unfold source_cell. replace (Z.ltb x 0) with false by lia. replace (Z.leb (ncells D) x) with false by lia. reflexivity.
Qed.
End A.
