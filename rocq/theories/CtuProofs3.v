(** Proofs about exchanged axes: whole steps. *)
From Verif Require Import Base BCModel BCSpec BCProofs LimiterModel LimiterProofs Classic1DModel Classic1DSpec
  Classic1DProofs Classic1DProofs2 ParallelProofs2 SweepModel SweepSpec SweepProofs SweepProofs2 SweepProofs3 SweepProofs4 SweepProofs6
  UnsplitModel UnsplitSpec UnsplitProofs UnsplitProofs2 UnsplitProofs3 CtuSpec CtuProofs CtuProofs2.

Lemma exchanged_twice_face S d ix : length (n_bcs S) = 2%nat -> (d < 2)%nat -> length ix = 2%nat -> face1 (exchanged S) (1 - d) (rev ix) <-> face1 S d ix.
Proof.
  intros Hl Hd HL. unfold face1. cbn [exchanged n_bcs n_ng]. rewrite !rev_length, map_rev, Hl.
  destruct (n_bcs S) as [|D1 [|D2 [|]]]; try discriminate Hl. cbn [map rev app].
  destruct ix as [|a [|b [|]]]; try discriminate HL. cbn [rev app length].
  split; intros (_ & H); (split; [reflexivity|]); intros j Hj; pose proof (H 0%nat ltac:(lia)) as H0; pose proof (H 1%nat ltac:(lia)) as H1;
    destruct d as [|[|d]]; [| |lia| | |lia]; destruct j as [|[|j]]; try lia; cbn [Nat.sub Nat.eqb get nth] in *; lia.
Qed.

(** Ghost cells *)
Lemma ghost_x Dx Dy q c a b : q_ghost_value Q Qopp [Dy; Dx] (transposed q) c [b; a] = q_ghost_value Q Qopp [Dx; Dy] q c [a; b].
Proof.
  unfold q_ghost_value, transposed. cbn [combine map rev app fold_right fst snd].
  destruct (_ && behind_wall (q_lo Dx) _ _ _)%bool, (_ && behind_wall (q_lo Dy) _ _ _)%bool; reflexivity.
Qed.
Lemma aux_x Dx Dy aux c a b : aux_ghost_value Q [Dy; Dx] (transposed aux) c [b; a] = aux_ghost_value Q [Dx; Dy] aux c [a; b].
Proof. reflexivity. Qed.

Section W.
Variable undef : Q -> Q -> Z -> Q.
Variable S : msettings.
Variables Dx Dy : dimbc.
Notation T := (exchanged S).
Notation neq := (n_neq S).
Notation naux := (n_naux S).
Notation g := (Z.of_nat (n_ng S)).
Notation hasx := (Nat.ltb 0 (n_naux S)).
Hypothesis HB : n_bcs S = [Dx; Dy].
Hypothesis Hg : (2 <= n_ng S)%nat.
Hypothesis Hk : mcapa_in_aux S.
Hypothesis Fx : fit_dim (n_ng S) hasx (Z.of_nat neq) Dx.
Hypothesis Fy : fit_dim (n_ng S) hasx (Z.of_nat neq) Dy.
Notation nx := (ncells Dx).
Notation ny := (ncells Dy).

Lemma W_len : length (n_bcs S) = 2%nat. Proof. rewrite HB. reflexivity. Qed.
Lemma W_ns : map ncells (n_bcs S) = [nx; ny]. Proof. rewrite HB. reflexivity. Qed.
Lemma W_n : (1 <= nx)%Z /\ (1 <= ny)%Z.
Proof. destruct Fx as (_ & _ & _ & _ & _ & (_ & _ & A) & _). destruct Fy as (_ & _ & _ & _ & _ & (_ & _ & B) & _). auto. Qed.
Lemma W_bcs : n_bcs T = [Dy; Dx]. Proof. cbn [exchanged n_bcs]. rewrite HB. reflexivity. Qed.

Lemma ghosts_x q aux qbc0 auxbc0 qbc1 auxbc1 : exists qbc auxbc qbc' auxbc',
  apply_bcs Q Qopp (n_ng S) hasx (n_funs S) (Z.of_nat neq) (n_bcs S) q aux qbc0 auxbc0 = Ok (qbc, auxbc) /\
  apply_bcs Q Qopp (n_ng T) (Nat.ltb 0 (n_naux T)) (n_funs T) (Z.of_nat (n_neq T)) (n_bcs T) (transposed q) (transposed aux) qbc1 auxbc1 = Ok (qbc', auxbc') /\
  agree S nx ny neq qbc qbc' /\ agree S nx ny naux auxbc auxbc'.
Proof.
  rewrite W_bcs, HB. cbn [exchanged n_ng n_naux n_funs n_neq].
  destruct (apply_bcs_at Q Qopp (n_ng S) hasx (n_funs S) (Z.of_nat neq) [Dx; Dy] q aux qbc0 auxbc0 ltac:(lia)) as (qb & ab & E & A1 & A2 & _).
  { exact (Forall_cons _ Fx (Forall_cons _ Fy (Forall_nil _))). }
  destruct (apply_bcs_at Q Qopp (n_ng S) hasx (n_funs S) (Z.of_nat neq) [Dy; Dx] (transposed q) (transposed aux) qbc1 auxbc1 ltac:(lia)) as (qb' & ab' & E' & B1 & B2 & _).
  { exact (Forall_cons _ Fy (Forall_cons _ Fx (Forall_nil _))). }
  exists qb, ab, qb', ab'. split; [exact E|]. split; [exact E'|].
  assert (P : forall ix, inb S nx ny ix -> exists a b, ix = shift g [a; b] /\ rev ix = shift g [b; a] /\ in_box (n_ng S) [Dx; Dy] [a; b] /\ in_box (n_ng S) [Dy; Dx] [b; a]).
  { intros ix (HL & I0 & I1). destruct ix as [|a [|b [|]]]; try discriminate HL. cbn [get] in I0, I1. exists (a - g)%Z, (b - g)%Z.
    unfold shift. cbn [map rev app in_box]. replace (a - g + g)%Z with a by lia. replace (b - g + g)%Z with b by lia. repeat split; lia. }
  split; intros c ix Hc I; destruct (P ix I) as (a & b & -> & -> & I1 & I2).
  - rewrite (A1 c _ I1), (B1 c _ I2). apply ghost_x.
  - assert (HA : hasx = true) by (apply Nat.ltb_lt; lia). rewrite (A2 HA c _ I1), (B2 HA c _ I2). apply aux_x.
Qed.

Section C.
Variable trans : Z.
Variables aux aux' x x' : arr Q.
Hypothesis Ha : agree S nx ny naux aux aux'.
Hypothesis Hx : agree S nx ny neq x x'.
Lemma face1_inb d ix : (d < 2)%nat -> face1 S d ix -> inb S nx ny ix /\ inb S nx ny (lower d ix).
Proof.
  intros Hd (HL & H). rewrite W_len in HL, H. rewrite W_ns in H. destruct ix as [|a [|b [|]]]; try discriminate HL.
  pose proof (H 0%nat ltac:(lia)) as H0. pose proof (H 1%nat ltac:(lia)) as H1. unfold inb, lower.
  destruct d as [|[|d]]; [| |lia]; cbn [Nat.eqb put get nth length] in *; repeat split; lia.
Qed.
Lemma crossed_x d ix p v : (d < 2)%nat -> face1 S d ix -> crossed T (1 - d) aux' x' (rev ix) p v <-> crossed S d aux x ix p v.
Proof.
  intros Hd HF. destruct (face1_inb d ix Hd HF) as (I & J). unfold crossed, face_speed.
  rewrite (rev_lower d ix Hd (proj1 I)).
  rewrite (ratio_x S nx ny Hk aux aux' Ha d ix Hd I), (ratio_x S nx ny Hk aux aux' Ha d _ Hd J).
  pose proof (face_x S nx ny aux aux' Ha x x' Hx d ix Hd I J) as F. unfold at_face in F. rewrite (rev_lower d ix Hd (proj1 I)) in F.
  cbn [exchanged n_neq n_naux n_rpn] in *. rewrite F. reflexivity.
Qed.
Lemma cfl_x : snd (step2 undef T trans aux' x' x') == snd (step2 undef S trans aux x x).
Proof.
  destruct (n_nonneg S nx ny W_ns W_len Hg W_n) as (N1 & N2).
  destruct (unsplit_cfl undef S trans ltac:(lia) W_len N1 aux x) as (A0 & A1 & A2).
  destruct (unsplit_cfl undef T trans ltac:(cbn [exchanged n_ng]; lia) ltac:(rewrite W_bcs; reflexivity) N2 aux' x') as (B0 & B1 & B2).
  set (c := snd (step2 undef S trans aux x x)) in *. set (c' := snd (step2 undef T trans aux' x' x')) in *.
  apply Qle_antisym.
  - destruct B2 as [-> | (d & ix & p & Hd & HF & Hp & HC)]; [exact A0|].
    assert (HL : length ix = 2%nat) by (destruct HF as (L & _); rewrite L, W_bcs; reflexivity).
    apply (A1 (1 - d)%nat (rev ix) p); [lia| |exact Hp|].
    + apply (exchanged_twice_face S (1 - d) (rev ix) W_len ltac:(lia) ltac:(rewrite rev_length; exact HL)). rewrite rev_involutive, (sub_sub d Hd). exact HF.
    + assert (HF' : face1 S (1 - d) (rev ix)).
      { apply (exchanged_twice_face S (1 - d) (rev ix) W_len ltac:(lia) ltac:(rewrite rev_length; exact HL)). rewrite rev_involutive, (sub_sub d Hd). exact HF. }
      apply (crossed_x (1 - d) (rev ix) p c' ltac:(lia) HF'). rewrite rev_involutive, (sub_sub d Hd). exact HC.
  - destruct A2 as [-> | (d & ix & p & Hd & HF & Hp & HC)]; [exact B0|].
    assert (HL : length ix = 2%nat) by (destruct HF as (L & _); rewrite L; apply W_len).
    apply (B1 (1 - d)%nat (rev ix) p); [lia| |exact Hp|].
    + apply exchanged_twice_face; [apply W_len|exact Hd|exact HL|exact HF].
    + apply crossed_x; assumption.
Qed.
End C.

Theorem exchange trans q aux qbc0 auxbc0 qbc1 auxbc1 : exists q1 c1 q2 c2,
  unsplit_step undef S trans q aux qbc0 auxbc0 = MStepped q1 c1 /\
  unsplit_step undef T trans (transposed q) (transposed aux) qbc1 auxbc1 = MStepped q2 c2 /\
  c2 == c1 /\
  forall m i j, (0 <= m < Z.of_nat neq)%Z -> (0 <= i < nx)%Z -> (0 <= j < ny)%Z -> q2 m [j; i] == q1 m [i; j].
Proof.
  destruct (ghosts_x q aux qbc0 auxbc0 qbc1 auxbc1) as (qb & ab & qb' & ab' & E & E' & Aq & Aa).
  unfold unsplit_step. rewrite E, E'. cbv zeta.
  exists (set_q_from_qbc Q (n_ng S) (fst (step2 undef S trans ab qb qb))), (snd (step2 undef S trans ab qb qb)),
    (set_q_from_qbc Q (n_ng T) (fst (step2 undef T trans ab' qb' qb'))), (snd (step2 undef T trans ab' qb' qb')).
  split; [reflexivity|]. split; [reflexivity|]. split; [apply cfl_x; assumption|].
  intros m i j Hm Hi Hj. unfold set_q_from_qbc, shift. cbn [map exchanged n_ng]. fold (exchanged S).
  apply (step2_x undef S trans nx ny W_ns W_len Hg W_n Hk ab ab' Aa qb qb' Aq); [exact Hm|lia|lia].
Qed.

Theorem split_exchange q aux qbc0 auxbc0 qbc1 auxbc1 : exists qbc auxbc q2 c2,
  apply_bcs Q Qopp (n_ng S) hasx (n_funs S) (Z.of_nat neq) (n_bcs S) q aux qbc0 auxbc0 = Ok (qbc, auxbc) /\
  split_step undef T (transposed q) (transposed aux) qbc1 auxbc1 = MStepped q2 c2 /\
  let along_y := fst (sweep undef S (layers S) false 1 auxbc qbc qbc) in
  let then_x := fst (sweep undef S (layers S) false 0 auxbc along_y along_y) in
  forall m i j, (0 <= m < Z.of_nat neq)%Z -> (0 <= i < nx)%Z -> (0 <= j < ny)%Z -> q2 m [j; i] = then_x m [(i + g)%Z; (j + g)%Z].
Proof.
  destruct (ghosts_x q aux qbc0 auxbc0 qbc1 auxbc1) as (qb & ab & qb' & ab' & E & E' & Aq & Aa).
  unfold split_step. rewrite E'. cbv zeta. unfold split_sweeps. rewrite W_bcs. cbn [length Nat.sub more_sweeps]. cbn [fst snd].
  eexists qb, ab, _, _. split; [exact E|]. split; [reflexivity|].
  intros m i j Hm Hi Hj. unfold set_q_from_qbc, shift. cbn [map]. change (n_ng (exchanged S)) with (n_ng S).
  assert (I : inb S nx ny [(i + g)%Z; (j + g)%Z]) by (unfold inb; cbn [length get]; repeat split; lia).
  pose proof (fun y y' Hy => sweep_x undef S nx ny W_ns W_len Hg W_n Hk ab ab' Aa y y' Hy 0 m [(i + g)%Z; (j + g)%Z] false true ltac:(lia) I Hm) as K.
  cbn [Nat.sub rev app] in K. apply K. intros c ix Hc Ix.
  exact (sweep_x undef S nx ny W_ns W_len Hg W_n Hk ab ab' Aa qb qb' Aq 1 c ix false false ltac:(lia) Ix Hc).
Qed.
End W.
