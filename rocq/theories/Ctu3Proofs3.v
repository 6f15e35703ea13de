(** Proofs about three-dimensional problems with the axes in another order: whole steps. *)
From Verif Require Import Base BCModel BCSpec BCProofs LimiterModel LimiterProofs Classic1DModel Classic1DSpec
  Classic1DProofs Classic1DProofs2 ParallelProofs2 SweepModel SweepSpec SweepProofs SweepProofs2 SweepProofs3 SweepProofs4 SweepProofs6
  UnsplitModel UnsplitSpec UnsplitProofs UnsplitProofs2 UnsplitProofs3 CtuSpec CtuProofs CtuProofs2
  Unsplit3Model Unsplit3Spec Unsplit3Proofs Unsplit3Proofs2 Unsplit3Proofs3 Ctu3Spec Ctu3Proofs Ctu3Proofs2.

(** Ghost cells *)
Lemma ghost3_x p Dx Dy Dz q c a b e : In p orders ->
  q_ghost_value Q Qopp (map (fun d => nth d [Dx; Dy; Dz] Dx) p) (rearranged p q) c (reordered p [a; b; e]) = q_ghost_value Q Qopp [Dx; Dy; Dz] q c [a; b; e].
Proof.
  intros Hp. unfold q_ghost_value. each_order Hp; unfold rearranged; cbn [reordered map nth get combine rev app fold_right fst snd place Nat.eqb];
    destruct (_ && behind_wall (q_lo Dx) _ _ _)%bool, (_ && behind_wall (q_lo Dy) _ _ _)%bool, (_ && behind_wall (q_lo Dz) _ _ _)%bool; reflexivity.
Qed.
Lemma aux3_x p Dx Dy Dz aux c a b e : In p orders ->
  aux_ghost_value Q (map (fun d => nth d [Dx; Dy; Dz] Dx) p) (rearranged p aux) c (reordered p [a; b; e]) = aux_ghost_value Q [Dx; Dy; Dz] aux c [a; b; e].
Proof. intros Hp. each_order Hp; reflexivity. Qed.

Section W.
Variable undef : Q -> Q -> Z -> Q.
Variable S : msettings.
Variables Dx Dy Dz : dimbc.
Variable rpt : nat -> rpt3solver.
Variable rptt : nat -> rptt3solver.
Variable p : list nat.
Hypothesis Hp : In p orders.
Variable trans : Z.
Variables stale stale' : nat -> list Z -> leftovers.
Notation T := (reordered_problem p S).
Notation neq := (n_neq S).
Notation naux := (n_naux S).
Notation g := (Z.of_nat (n_ng S)).
Notation hasx := (Nat.ltb 0 (n_naux S)).
Notation pick := (reordered p).
Notation ax := (axis p).
Hypothesis HB : n_bcs S = [Dx; Dy; Dz].
Hypothesis Hg : (2 <= n_ng S)%nat.
Hypothesis Hk : mcapa_in_aux S.
Hypothesis Fx : fit_dim (n_ng S) hasx (Z.of_nat neq) Dx.
Hypothesis Fy : fit_dim (n_ng S) hasx (Z.of_nat neq) Dy.
Hypothesis Fz : fit_dim (n_ng S) hasx (Z.of_nat neq) Dz.
Hypothesis Hdes : described (n_order S) trans.

Lemma W3_len : length (n_bcs S) = 3%nat. Proof. rewrite HB. reflexivity. Qed.
Lemma W3_n : Forall (fun n => 1 <= n)%Z (map ncells (n_bcs S)).
Proof.
  destruct Fx as (_ & _ & _ & _ & _ & (_ & _ & A) & _). destruct Fy as (_ & _ & _ & _ & _ & (_ & _ & B) & _). destruct Fz as (_ & _ & _ & _ & _ & (_ & _ & C) & _).
  rewrite HB. exact (Forall_cons _ A (Forall_cons _ B (Forall_cons _ C (Forall_nil _)))).
Qed.
Lemma W3_bcs : n_bcs T = map (fun d => nth d [Dx; Dy; Dz] Dx) p. Proof. cbn [reordered_problem n_bcs]. rewrite HB. reflexivity. Qed.

Lemma ghosts3_x q aux qbc0 auxbc0 qbc1 auxbc1 : exists qbc auxbc qbc' auxbc',
  apply_bcs Q Qopp (n_ng S) hasx (n_funs S) (Z.of_nat neq) (n_bcs S) q aux qbc0 auxbc0 = Ok (qbc, auxbc) /\
  apply_bcs Q Qopp (n_ng T) (Nat.ltb 0 (n_naux T)) (n_funs T) (Z.of_nat (n_neq T)) (n_bcs T) (rearranged p q) (rearranged p aux) qbc1 auxbc1 = Ok (qbc', auxbc') /\
  agree3 S p neq qbc qbc' /\ agree3 S p naux auxbc auxbc'.
Proof.
  rewrite W3_bcs, HB. cbn [reordered_problem n_ng n_naux n_funs n_neq].
  assert (FF : forall d, (d < 3)%nat -> fit_dim (n_ng S) hasx (Z.of_nat neq) (nth d [Dx; Dy; Dz] Dx)) by (intros d Hd; each_axis d; assumption).
  destruct (apply_bcs_at Q Qopp (n_ng S) hasx (n_funs S) (Z.of_nat neq) [Dx; Dy; Dz] q aux qbc0 auxbc0 ltac:(lia)) as (qb & ab & E & A1 & A2 & _).
  { exact (Forall_cons _ Fx (Forall_cons _ Fy (Forall_cons _ Fz (Forall_nil _)))). }
  destruct (apply_bcs_at Q Qopp (n_ng S) hasx (n_funs S) (Z.of_nat neq) (map (fun d => nth d [Dx; Dy; Dz] Dx) p) (rearranged p q) (rearranged p aux) qbc1 auxbc1 ltac:(lia)) as (qb' & ab' & E' & B1 & B2 & _).
  { apply Forall_forall. intros D HD. apply in_map_iff in HD. destruct HD as (d & <- & Hd). apply FF. clear - Hp Hd. each_order Hp; cbn in Hd; lia. }
  exists qb, ab, qb', ab'. split; [exact E|]. split; [exact E'|].
  assert (P : forall ix, inb3 S ix -> exists a b e, ix = shift g [a; b; e] /\ pick ix = shift g (pick [a; b; e]) /\ in_box (n_ng S) [Dx; Dy; Dz] [a; b; e] /\
    in_box (n_ng S) (map (fun d => nth d [Dx; Dy; Dz] Dx) p) (pick [a; b; e])).
  { intros ix (HL & I). destruct ix as [|a [|b [|e [|]]]]; try discriminate HL. rewrite HB in I.
    pose proof (I 0%nat ltac:(lia)) as I0. pose proof (I 1%nat ltac:(lia)) as I1. pose proof (I 2%nat ltac:(lia)) as I2. cbn [get nth map] in I0, I1, I2.
    exists (a - g)%Z, (b - g)%Z, (e - g)%Z.
    assert (K : [a; b; e] = shift g [(a - g)%Z; (b - g)%Z; (e - g)%Z]) by (unfold shift; cbn [map]; repeat f_equal; lia).
    split; [exact K|]. split.
    { rewrite K at 1. clear - Hp. each_order Hp; reflexivity. }
    clear - Hp I0 I1 I2. each_order Hp; cbn [map reordered get nth in_box]; repeat split; lia. }
  split; intros c ix Hc I; destruct (P ix I) as (a & b & e & -> & -> & I1 & I2).
  - rewrite (A1 c _ I1), (B1 c _ I2). apply ghost3_x. exact Hp.
  - assert (HA : hasx = true) by (apply Nat.ltb_lt; lia). rewrite (A2 HA c _ I1), (B2 HA c _ I2). apply aux3_x. exact Hp.
Qed.

Section C.
Variables aux aux' x x' : arr Q.
Hypothesis Ha : agree3 S p naux aux aux'.
Hypothesis Hx : agree3 S p neq x x'.
Lemma face3_same e ix : (e < 3)%nat -> length ix = 3%nat -> face T e (pick ix) <-> face S (ax e) ix.
Proof.
  intros He HL. pose proof (T3_len S p Hp W3_len W3_n) as TL. unfold face. rewrite TL, W3_len.
  rewrite (layers_3 S ltac:(lia) W3_len) by (exact (proj1 (n3_nonneg S p Hp W3_len W3_n))).
  rewrite (layers_3 T ltac:(cbn [reordered_problem n_ng]; lia) TL) by (exact (proj2 (n3_nonneg S p Hp W3_len W3_n))).
  change (n_ng T) with (n_ng S). rewrite pick_length by exact Hp.
  assert (EQ : forall j, (j < 3)%nat -> Nat.eqb j e = Nat.eqb (ax j) (ax e)) by (intros j Hj; clear - Hp He Hj; each_order Hp; each_axis e; each_axis j; reflexivity).
  split; intros (_ & H); (split; [assumption || reflexivity|]); intros j Hj; cbv zeta in H |- *.
  - destruct (axis_onto p j Hp Hj) as (j' & Hj' & <-). specialize (H j' Hj'). rewrite (T3_mx S p Hp W3_len W3_n j' Hj'), (EQ j' Hj'), (pick_get p j' ix Hp Hj') in H. exact H.
  - rewrite (T3_mx S p Hp W3_len W3_n j Hj), (EQ j Hj), (pick_get p j ix Hp Hj). apply H. apply axis_3; assumption.
Qed.
Lemma face3_inb d ix : (d < 3)%nat -> face S d ix -> inb3 S ix /\ inb3 S (lower d ix).
Proof.
  intros Hd (HL & H). rewrite W3_len in HL, H. rewrite (layers_3 S ltac:(lia) W3_len) in H by (exact (proj1 (n3_nonneg S p Hp W3_len W3_n))). cbv zeta in H. split.
  - split; [exact HL|]. intros e He. specialize (H e He). destruct (Nat.eqb e d); lia.
  - split; [unfold lower; rewrite put_length; exact HL|]. intros e He. specialize (H e He). unfold lower. destruct (Nat.eqb_spec e d) as [E | N].
    + rewrite E in *. rewrite get_put by lia. lia.
    + rewrite get_put_other by congruence. lia.
Qed.
Lemma crossed3_x e ix w v : (e < 3)%nat -> face S (ax e) ix -> crossed T e aux' x' (pick ix) w v <-> crossed S (ax e) aux x ix w v.
Proof.
  intros He HF. destruct (face3_inb (ax e) ix (axis_3 p e Hp He) HF) as (I & J). unfold crossed, face_speed.
  rewrite (pick_lower p e ix Hp He (proj1 I)).
  rewrite (ratio3_x S p Hk aux aux' Ha e ix I), (ratio3_x S p Hk aux aux' Ha e _ J).
  pose proof (face3_x S p Hp aux aux' Ha x x' Hx e ix He I J) as F. unfold at_face in F. rewrite (pick_lower p e ix Hp He (proj1 I)) in F.
  change (n_neq T) with neq in *. change (n_naux T) with naux in *. rewrite F. reflexivity.
Qed.
Lemma cfl3_x : snd (step3 undef T (reordered_rpt p rpt) (reordered_rptt p rptt) stale' trans aux' x' x') == snd (step3 undef S rpt rptt stale trans aux x x).
Proof.
  destruct (n3_nonneg S p Hp W3_len W3_n) as (N1 & N2). pose proof (T3_len S p Hp W3_len W3_n) as TL.
  destruct (unsplit3_cfl undef S rpt rptt stale trans ltac:(lia) W3_len N1 aux x) as (A0 & A1 & A2).
  destruct (unsplit3_cfl undef T (reordered_rpt p rpt) (reordered_rptt p rptt) stale' trans ltac:(cbn [reordered_problem n_ng]; lia) TL N2 aux' x') as (B0 & B1 & B2).
  set (c := snd (step3 undef S rpt rptt stale trans aux x x)) in *. set (c' := snd (step3 undef T _ _ stale' trans aux' x' x')) in *.
  apply Qle_antisym.
  - destruct B2 as [-> | (e & ix' & w & He & HF & Hw & HC)]; [exact A0|].
    assert (HL : length ix' = 3%nat) by (destruct HF as (L & _); rewrite L; exact TL).
    destruct (pick_onto p ix' Hp HL) as (ix & HLx & <-). apply (face3_same e ix He HLx) in HF.
    apply (A1 (ax e) ix w); [apply axis_3; assumption|exact HF|exact Hw|]. apply crossed3_x; assumption.
  - destruct A2 as [-> | (d & ix & w & Hd & HF & Hw & HC)]; [exact B0|].
    assert (HL : length ix = 3%nat) by (destruct HF as (L & _); rewrite L; apply W3_len).
    destruct (axis_onto p d Hp Hd) as (e & He & <-).
    apply (B1 e (pick ix) w); [exact He| |exact Hw|].
    + apply face3_same; assumption.
    + apply crossed3_x; assumption.
Qed.
End C.

Theorem reorder q aux qbc0 auxbc0 qbc1 auxbc1 : exists q1 c1 q2 c2,
  unsplit3_step undef S rpt rptt stale trans q aux qbc0 auxbc0 = MStepped q1 c1 /\
  unsplit3_step undef T (reordered_rpt p rpt) (reordered_rptt p rptt) stale' trans (rearranged p q) (rearranged p aux) qbc1 auxbc1 = MStepped q2 c2 /\
  c2 == c1 /\
  forall m i j k, (0 <= m < Z.of_nat neq)%Z -> (0 <= i < ncells Dx)%Z -> (0 <= j < ncells Dy)%Z -> (0 <= k < ncells Dz)%Z ->
  q2 m (pick [i; j; k]) == q1 m [i; j; k].
Proof.
  destruct (ghosts3_x q aux qbc0 auxbc0 qbc1 auxbc1) as (qb & ab & qb' & ab' & E & E' & Aq & Aa).
  unfold unsplit3_step. rewrite E, E'. cbv zeta.
  eexists. eexists. eexists. eexists. split; [reflexivity|]. split; [reflexivity|]. split; [apply cfl3_x; assumption|].
  intros m i j k Hm Hi Hj Hk'. unfold set_q_from_qbc. change (n_ng T) with (n_ng S).
  assert (PS : shift g (pick [i; j; k]) = pick (shift g [i; j; k])) by (clear - Hp; each_order Hp; reflexivity). rewrite PS.
  apply (step3_x undef S rpt rptt p Hp trans W3_len Hg W3_n Hk ab ab' Aa qb qb' Aq stale stale' Hdes m _ Hm).
  split; [reflexivity|]. rewrite HB. unfold shift. intros d Hd. each_axis d; cbn [map get nth]; lia.
Qed.
End W.
