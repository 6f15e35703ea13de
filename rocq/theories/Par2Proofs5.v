(** Proofs about parallel runs in more dimensions, part 5: the unsplit step in three dimensions on a box. *)
From Verif Require Import Base BCModel BCSpec BCProofs LimiterModel LimiterProofs Classic1DModel Classic1DSpec
  Classic1DProofs Classic1DProofs2 ParallelModel ParallelProofs2 SweepModel SweepSpec SweepProofs SweepProofs2 SweepProofs3
  UnsplitProofs2 Unsplit3Model Unsplit3Spec Unsplit3Proofs Unsplit3Proofs2 Par2Model Par2Proofs Par2Proofs2 Par2Proofs3 Par2Proofs4.

Lemma fold_map {A B C} (f : A -> B -> A) (h : C -> B) : forall l v, fold_left f (map h l) v = fold_left (fun w x => f w (h x)) l v.
Proof. induction l as [|x l IH]; intro v; cbn [map fold_left]; [reflexivity|apply IH]. Qed.
Lemma fold_ext {A B} (f f' : A -> B -> A) : forall l v, (forall x, In x l -> forall w, f w x = f' w x) -> fold_left f l v = fold_left f' l v.
Proof.
  induction l as [|x l IH]; intros v H; cbn [fold_left]; [reflexivity|]. rewrite (H x (or_introl eq_refl)). apply IH. intros y Hy. apply H. right. exact Hy.
Qed.
Lemma u3_sweep_at undef S rpt rptt stale trans d auxbc q (st : arr Q * Q) m ix : fst (u3_sweep undef S rpt rptt stale trans d auxbc q st) m ix =
  fold_left (fun v b => u3_change S d (u3_flux undef S rpt rptt stale trans d auxbc q b) auxbc b v m ix) (lines d (n_ng S) 1 (map ncells (n_bcs S))) (fst st m ix).
Proof.
  unfold u3_sweep. generalize (lines d (n_ng S) 1 (map ncells (n_bcs S))). intro l. revert st.
  induction l as [|b l IH]; intro st; cbn [fold_left]; [reflexivity|]. rewrite IH. reflexivity.
Qed.
Lemma u3_change_idle S d F a b v m ix : (d < 3)%nat -> length b = 3%nat ->
  all3 (map (fun e => if Nat.eqb e d then fun _ => true else by1 (get e ix)) [0; 1; 2]%nat) b = false -> u3_change S d F a b v m ix = v.
Proof.
  intros Hd HL H. unfold u3_change. cbv zeta. destruct (in_slice _ _ _); [|reflexivity].
  assert (K : (1 < Z.abs (get (across1 d) ix - get (across1 d) b) \/ 1 < Z.abs (get (across2 d) ix - get (across2 d) b))%Z).
  { destruct b as [|b0 [|b1 [|b2 [|]]]]; cbn [length] in HL; try lia. destruct d as [|[|[|d]]]; [| | |lia]; cbn [map Nat.eqb all3 across1 across2] in *; change (get 0 [b0; b1; b2]) with b0; change (get 1 [b0; b1; b2]) with b1; change (get 2 [b0; b1; b2]) with b2; unfold by1 in H; lia. }
  destruct (get (across1 d) ix - get (across1 d) b)%Z as [|p|p], (get (across2 d) ix - get (across2 d) b)%Z as [|p'|p'];
    try (destruct p); try (destruct p'); try reflexivity; lia.
Qed.
Lemma forall2_length {A B} (P : A -> B -> Prop) : forall l l', Forall2 P l l' -> length l = length l'.
Proof. intros l l' H. induction H; cbn [length]; [reflexivity|rewrite IHForall2; reflexivity]. Qed.
Lemma get_lines d ng ext ns b : length ns = 3%nat -> In b (lines d ng ext ns) -> length b = 3%nat.
Proof.
  intros Hn H. unfold lines in H. apply cart_in in H. apply forall2_length in H. rewrite H. clear H.
  destruct ns as [|n0 [|n1 [|n2 [|]]]]; cbn [length] in Hn; try lia. reflexivity.
Qed.
Lemma put_move3 d a c v y : (d < 3)%nat -> length y = 3%nat -> put d v (move3 d a c (put d 0 y)) = put d v (move3 d a c y).
Proof.
  intros Hd HL. destruct (across_3 d Hd) as (H1 & H2 & H3 & H4 & H5). destruct (get_move3 d a c y Hd HL) as (G0 & G1 & G2).
  destruct (get_move3 d a c (put d 0 y) Hd ltac:(rewrite put_length; exact HL)) as (K0 & K1 & K2).
  apply (ext3 d); try exact Hd; rewrite ?put_length, ?move3_length, ?put_length; try exact HL.
  - rewrite !get_put by (rewrite move3_length, ?put_length; lia). reflexivity.
  - rewrite !get_put_other by congruence. rewrite G1, K1, get_put_other by congruence. reflexivity.
  - rewrite !get_put_other by congruence. rewrite G2, K2, get_put_other by congruence. reflexivity.
Qed.
Lemma moved_move3 bs d a c y : (d < 3)%nat -> length bs = 3%nat -> length y = 3%nat -> moved bs (move3 d a c y) = move3 d a c (moved bs y).
Proof.
  intros Hd H3 HL. destruct (across_3 d Hd) as (H1 & H2 & H3' & H4 & H5). unfold move3.
  rewrite !moved_put by (rewrite ?put_length; lia). rewrite !get_moved by lia. rewrite !Z.add_assoc. reflexivity.
Qed.

Section U3.
Variable undef : Q -> Q -> Z -> Q.
Variable S : msettings.
Variable bs : list (Z * Z).
Variable rpt : nat -> rpt3solver.
Variable rptt : nat -> rptt3solver.
Variables stale' stale : nat -> list Z -> leftovers.
Variable trans : Z.
Notation T := (mlocal S bs).
Notation neq := (n_neq S).
Notation g := (Z.of_nat (n_ng S)).
Notation ns := (map ncells (n_bcs S)).
Notation ns' := (map ncells (n_bcs (mlocal S bs))).
Notation o j := (start bs j).
Hypothesis HD : described (n_order S) trans.
Hypothesis Hg2 : (2 <= n_ng S)%nat.
Hypothesis H3 : length bs = 3%nat.
Hypothesis HL : length bs = length (n_bcs S).
Hypothesis HB : forall j, (j < length bs)%nat -> (0 <= fst (nth j bs (0, 0)) /\ fst (nth j bs (0, 0)) < snd (nth j bs (0, 0)) /\ snd (nth j bs (0, 0)) <= nth j ns 0)%Z.
Hypothesis Hk : mcapa_in_aux S.
Variables aux' aux x' x : arr Q.
Hypothesis Wa : window S bs (n_naux S) g 0 aux' aux.
Hypothesis Wx : window S bs neq g 0 x' x.
Notation onto d b := (put d 0%Z (moved bs b)).

Lemma slice_part n a' a d b i m : window S bs n g 0 a' a -> (0 <= m < Z.of_nat n)%Z -> (d < 3)%nat -> length b = 3%nat ->
  (forall e, (e < 3)%nat -> e <> d -> (0 <= get e b < g + nth e ns' 0 + g)%Z) -> (1 - g <= i <= nth d ns' 0 + g)%Z ->
  slice (n_ng T) d b a' m i = a m (put d (i + o d + g - 1)%Z (moved bs b)).
Proof.
  intros W Hm Hd Hb B Hi. unfold slice. cbn [mlocal n_ng]. rewrite (W m _ Hm).
  - rewrite moved_put by lia. do 2 f_equal. lia.
  - split; [rewrite put_length, (T_length S bs ltac:(lia) HL); lia|]. intros e He. rewrite (T_length S bs ltac:(lia) HL) in He.
    replace (Nat.ltb e 0) with false by reflexivity. cbn [mlocal n_ng]. change (map ncells (local_bcs (n_bcs S) bs)) with ns'. destruct (Nat.eq_dec e d) as [E|N].
    + subst e. rewrite get_put by lia. lia.
    + rewrite get_put_other by lia. specialize (B e ltac:(lia) N). lia.
Qed.
Lemma window_u3_change d a c v m ix : (d < 3)%nat -> (-1 <= a <= 1)%Z -> (-1 <= c <= 1)%Z -> (0 <= m < Z.of_nat neq)%Z -> box T 0 0 ix ->
  let b := move3 d a c (put d 0 ix) in
  u3_change T d (u3_flux undef T rpt rptt stale' trans d aux' x' b) aux' b v m ix =
  u3_change S d (u3_flux undef S rpt rptt stale trans d aux x (onto d b)) aux (onto d b) v m (moved bs ix).
Proof.
  intros Hd Ha Hc Hm B. cbv zeta. assert (G1 : (1 <= n_ng S)%nat) by lia. pose proof (box_len S bs G1 HL _ _ _ B) as Hlen. rewrite H3 in Hlen.
  assert (Bd : forall e, (e < 3)%nat -> (g <= get e ix < g + nth e ns' 0)%Z).
  { intros e He. destruct B as [_ B]. specialize (B e ltac:(rewrite (T_length S bs G1 HL); lia)). replace (Nat.ltb e 0) with false in B by reflexivity.
    cbn [mlocal n_ng n_bcs] in *. lia. }
  destruct (across_3 d Hd) as (A1 & A2 & A3 & A4 & A5).
  set (b := move3 d a c (put d 0 ix)). assert (Lb : length b = 3%nat) by (unfold b; rewrite move3_length, put_length; exact Hlen).
  destruct (get_move3 d a c (put d 0 ix) Hd ltac:(rewrite put_length; exact Hlen)) as (M0 & M1 & M2). fold b in M0, M1, M2.
  rewrite get_put in M0 by lia. rewrite get_put_other in M1, M2 by congruence.
  pose proof (fits S bs G1 HL HB d ltac:(lia)) as Fd.
  assert (Bb : forall a1 c1 e, (-1 <= a1 <= 1)%Z -> (-1 <= c1 <= 1)%Z -> (e < 3)%nat -> e <> d -> (0 <= get e (move3 d a1 c1 b) < g + nth e ns' 0 + g)%Z).
  { intros a1 c1 e Ha1 Hc1 He Ne. destruct (get_move3 d a1 c1 b Hd Lb) as (K0 & K1 & K2).
    destruct (across_all d e Hd He) as [E|[E|E]]; [contradiction| |]; subst e; rewrite ?K1, ?K2, ?M1, ?M2.
    - pose proof (Bd (across1 d) A1). lia.
    - pose proof (Bd (across2 d) A2). lia. }
  assert (SP : forall n a' a0 a1 c1 i m0, window S bs n g 0 a' a0 -> (0 <= m0 < Z.of_nat n)%Z -> (-1 <= a1 <= 1)%Z -> (-1 <= c1 <= 1)%Z -> (1 - g <= i <= nth d ns' 0 + g)%Z ->
    slice (n_ng T) d (move3 d a1 c1 b) a' m0 i = slice (n_ng S) d (move3 d a1 c1 (onto d b)) a0 m0 (i + o d)).
  { intros n a' a0 a1 c1 i m0 W Hm0 Ha1 Hc1 Hi. rewrite (slice_part n a' a0 d (move3 d a1 c1 b) i m0 W Hm0 Hd) by (first [exact Hi | rewrite move3_length; exact Lb | intros; apply Bb; assumption]).
    unfold slice. rewrite put_move3 by (rewrite ?moved_length; lia). rewrite moved_move3 by (try assumption; lia). reflexivity. }
  assert (SP0 : forall n a' a0 i m0, window S bs n g 0 a' a0 -> (0 <= m0 < Z.of_nat n)%Z -> (1 - g <= i <= nth d ns' 0 + g)%Z ->
    slice (n_ng T) d b a' m0 i = slice (n_ng S) d (onto d b) a0 m0 (i + o d)).
  { intros n a' a0 i m0 W Hm0 Hi. pose proof (SP n a' a0 0%Z 0%Z i m0 W Hm0 ltac:(lia) ltac:(lia) Hi) as K.
    rewrite !move3_0 in K by (rewrite ?put_length, ?moved_length; lia). exact K. }
  assert (Hq : forall k, (-1 <= k <= nth d ns' 0 + 2)%Z -> vec neq (slice (n_ng T) d b x') k = vec neq (slice (n_ng S) d (onto d b) x) (k + o d)).
  { intros k Hk1. apply vec_in. intros m0 Hm0. apply (SP0 neq); [exact Wx|exact Hm0|lia]. }
  assert (Hd' : forall k, (-1 <= k <= nth d ns' 0 + 2)%Z -> line_dtdx T d (slice (n_ng T) d b aux') k = line_dtdx S d (slice (n_ng S) d (onto d b) aux) (k + o d)%Z).
  { intros k Hk1. unfold line_dtdx. cbn [mlocal n_capa n_dt n_delta]. destruct (n_capa S) as [cc|] eqn:Ec; [|reflexivity].
    pose proof (SP0 (n_naux S) aux' aux k cc Wa (Hk cc Ec) ltac:(lia)) as K. cbn [mlocal n_ng] in K. cbn [mlocal n_ng]. rewrite K. reflexivity. }
  assert (HA : forall k, (-1 <= k <= nth d ns' 0 + 2)%Z ->
    map (fun a0 => vec (n_naux S) a0 k) (map (fun o0 => slice (n_ng T) d (move3 d (fst o0) (snd o0) b) aux') nine) =
    map (fun a0 => vec (n_naux S) a0 (k + o d)%Z) (map (fun o0 => slice (n_ng S) d (move3 d (fst o0) (snd o0) (onto d b)) aux) nine)).
  { intros k Hk1. rewrite !map_map. apply map_ext_in. intros [a1 c1] Hin. apply vec_in. intros m0 Hm0. cbn [fst snd].
    assert (K : (-1 <= a1 <= 1 /\ -1 <= c1 <= 1)%Z).
    { unfold nine in Hin. cbn [In] in Hin. repeat match type of Hin with _ \/ _ => destruct Hin as [Hin|Hin] | False => destruct Hin end; injection Hin as <- <-; lia. }
    apply (SP (n_naux S)); [exact Wa|exact Hm0|lia|lia|lia]. }
  set (F' := u3_flux undef T rpt rptt stale' trans d aux' x' b). set (F := u3_flux undef S rpt rptt stale trans d aux x (onto d b)).
  assert (Hs : (0 <= o d /\ nth d ns' 0 + o d <= nth d ns 0)%Z) by lia.
  pose proof (fun up sl m0 i Hi => part_gadd3 neq (n_nw S) (n_naux S) g (nth d ns' 0%Z) (nth d ns 0%Z) (o d) (n_fwave S) (n_order S) trans (n_mthlim S) undef (n_rpn S d)
    (rpt d) (rptt d) (stale' d b) (stale d (onto d b)) HD Hs _ _ _ _ (n_dt S / n_delta S (across1 d)) (n_dt S / n_delta S (across2 d)) _ _ Hq HA Hd' up sl m0 i Hi) as PG.
  pose proof (part_normal neq (n_nw S) (n_naux S) g (nth d ns' 0%Z) (nth d ns 0%Z) (o d) (n_fwave S) (n_order S) trans (n_mthlim S) undef (n_rpn S d)
    (rpt d) (rptt d) (stale' d b) (stale d (onto d b)) ltac:(lia) Hs _ _ _ _ (n_dt S / n_delta S (across1 d)) (n_dt S / n_delta S (across2 d)) _ _ Hq HA Hd' m Hm) as [PF PQ].
  change (forall e, (1 <= e <= nth d ns' 0 + 1)%Z -> fadd (normal F') m e = fadd (normal F) m (e + o d)) in PF.
  change (forall i, (1 <= i <= nth d ns' 0)%Z -> qadd (normal F') m i = qadd (normal F) m (i + o d)) in PQ.
  change (forall up sl m0 i, (1 <= i <= nth d ns' 0)%Z -> g3add F' up sl m0 i = g3add F up sl m0 (i + o d) /\ h3add F' up sl m0 i = h3add F up sl m0 (i + o d)) in PG.
  pose proof (Bd d Hd) as Bi. clearbody F' F. clear Hq HA Hd' SP SP0.
  unfold u3_change. cbv zeta. cbn [mlocal n_ng n_dt n_delta n_capa]. change (map ncells (local_bcs (n_bcs S) bs)) with ns'.
  rewrite !(get_put_other) by congruence. rewrite !get_moved by lia.
  set (i' := (get d ix - g + 1)%Z). replace (o d + get d ix - g + 1)%Z with (i' + o d)%Z by (unfold i'; lia).
  assert (Hi' : (1 <= i' <= nth d ns' 0)%Z) by (unfold i'; lia). rewrite !in_slice_true by lia.
  replace (o (across1 d) + get (across1 d) ix - (o (across1 d) + get (across1 d) b))%Z with (get (across1 d) ix - get (across1 d) b)%Z by lia.
  replace (o (across2 d) + get (across2 d) ix - (o (across2 d) + get (across2 d) b))%Z with (get (across2 d) ix - get (across2 d) b)%Z by lia.
  assert (EG : forall up sl, g3add F' up sl m i' = g3add F up sl m (i' + o d)%Z) by (intros; apply PG; exact Hi').
  assert (EH : forall up sl, h3add F' up sl m i' = h3add F up sl m (i' + o d)%Z) by (intros; apply PG; exact Hi').
  rewrite !EG, !EH, (PQ i'), (PF i'), (PF (i' + 1)%Z) by lia. replace (i' + 1 + o d)%Z with (i' + o d + 1)%Z by lia.
  destruct (n_capa S) as [cc|] eqn:Ec; [|reflexivity].
  assert (CE : aux' cc ix = aux cc (moved bs ix)) by (apply Wa; [exact (Hk cc Ec)|apply (box_grow _ 0); [lia|exact B]]).
  rewrite CE. reflexivity.
Qed.
Lemma around_moved d ix : (d < 3)%nat -> length ix = 3%nat -> around d (moved bs ix) = map (fun b => onto d b) (around d ix).
Proof.
  intros Hd Hix. unfold around. destruct bs as [|b0 [|b1 [|b2 [|]]]]; cbn [length] in H3; try lia. destruct ix as [|i0 [|i1 [|i2 [|]]]]; cbn [length] in Hix; try lia.
  unfold moved. cbn [combine map fst snd get]. destruct b0 as [p0 ?], b1 as [p1 ?], b2 as [p2 ?]. cbn [fst snd].
  replace (p0 + i0 - 1)%Z with (p0 + (i0 - 1))%Z by lia. replace (p1 + i1 - 1)%Z with (p1 + (i1 - 1))%Z by lia. replace (p2 + i2 - 1)%Z with (p2 + (i2 - 1))%Z by lia.
  replace (p0 + i0 + 1)%Z with (p0 + (i0 + 1))%Z by lia. replace (p1 + i1 + 1)%Z with (p1 + (i1 + 1))%Z by lia. replace (p2 + i2 + 1)%Z with (p2 + (i2 + 1))%Z by lia.
  destruct d as [|[|[|d]]]; [| | |lia]; cbn [Nat.eqb cart flat_map map app combine fst snd put]; reflexivity.
Qed.
Lemma window_u3_sweep d (st' st : arr Q * Q) m ix : (d < 3)%nat -> (0 <= m < Z.of_nat neq)%Z -> box T 0 0 ix -> fst st' m ix = fst st m (moved bs ix) ->
  fst (u3_sweep undef T rpt rptt stale' trans d aux' x' st') m ix = fst (u3_sweep undef S rpt rptt stale trans d aux x st) m (moved bs ix).
Proof.
  intros Hd Hm B E. assert (G1 : (1 <= n_ng S)%nat) by lia. pose proof (box_len S bs G1 HL _ _ _ B) as Hlen. rewrite H3 in Hlen.
  assert (Bd : forall e, (e < 3)%nat -> (g <= get e ix < g + nth e ns' 0)%Z).
  { intros e He. destruct B as [_ B]. specialize (B e ltac:(rewrite (T_length S bs G1 HL); lia)). replace (Nat.ltb e 0) with false in B by reflexivity.
    cbn [mlocal n_ng n_bcs] in *. lia. }
  assert (L' : length ns' = 3%nat) by (rewrite (T_length S bs G1 HL); exact H3). assert (L : length ns = 3%nat) by (rewrite map_length; lia).
  rewrite !u3_sweep_at, E.
  assert (FT : forall (S0 : msettings) (f : Q -> list Z -> Q) (ix0 : list Z) v, length (map ncells (n_bcs S0)) = 3%nat ->
    (forall e, (e < 3)%nat -> (Z.of_nat (n_ng S0) <= get e ix0 < Z.of_nat (n_ng S0) + nth e (map ncells (n_bcs S0)) 0)%Z) ->
    (forall w (b : list Z), length b = 3%nat -> all3 (map (fun e => if Nat.eqb e d then fun _ => true else by1 (get e ix0)) [0; 1; 2]%nat) b = false -> f w b = w) ->
    fold_left f (lines d (n_ng S0) 1 (map ncells (n_bcs S0))) v = fold_left f (around d ix0) v).
  { intros S0 f ix0 v L0 B0 Hf. rewrite <- (filter_lines d (n_ng S0) (map ncells (n_bcs S0)) ix0 Hd L0 B0).
    set (p := all3 _) in *. assert (HLn : forall b, In b (lines d (n_ng S0) 1 (map ncells (n_bcs S0))) -> length b = 3%nat) by (intros b; apply get_lines; exact L0).
    revert v. induction (lines d (n_ng S0) 1 (map ncells (n_bcs S0))) as [|b l IH]; intro v; cbn [filter fold_left]; [reflexivity|].
    destruct (p b) eqn:Ep; [cbn [fold_left]; apply IH|rewrite Hf by (try exact Ep; apply HLn; left; reflexivity); apply IH]; intros; apply HLn; right; assumption. }
  rewrite (FT T _ ix) by (first [exact L' | exact Bd | intros; apply u3_change_idle; assumption]).
  rewrite (FT S _ (moved bs ix)).
  - rewrite (around_moved d ix Hd Hlen), fold_map. apply fold_ext. intros b Hb w.
    destruct (around_moves d ix b Hd Hlen Hb) as (a & c & Ha & Hc & Eb). rewrite Eb. apply window_u3_change; assumption.
  - exact L.
  - intros e He. rewrite get_moved by lia. pose proof (fits S bs G1 HL HB e ltac:(lia)). pose proof (Bd e He). lia.
  - intros; apply u3_change_idle; assumption.
Qed.
(** An unsplit step on the box is the part of the unsplit step on the grid. *)
Theorem window_unsplit3 m ix : (0 <= m < Z.of_nat neq)%Z -> box T 0 0 ix ->
  fst (step3 undef T rpt rptt stale' trans aux' x' x') m ix = fst (step3 undef S rpt rptt stale trans aux x x) m (moved bs ix).
Proof.
  intros Hm B. unfold step3. cbv zeta. apply window_u3_sweep; [lia|exact Hm|exact B|]. apply window_u3_sweep; [lia|exact Hm|exact B|]. apply window_u3_sweep; [lia|exact Hm|exact B|].
  cbn [fst]. apply Wx; [exact Hm|]. apply (box_grow _ 0); [lia|exact B].
Qed.
End U3.
