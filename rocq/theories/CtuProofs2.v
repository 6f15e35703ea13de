(** Proofs about exchanged axes. *)
From Verif Require Import Base BCModel BCSpec BCProofs LimiterModel LimiterProofs Classic1DModel Classic1DSpec
  Classic1DProofs Classic1DProofs2 ParallelProofs2 SweepModel SweepSpec SweepProofs SweepProofs2 SweepProofs3 SweepProofs4 SweepProofs6
  UnsplitModel UnsplitSpec UnsplitProofs UnsplitProofs2 UnsplitProofs3 CtuSpec CtuProofs.

Lemma rev_lower d ix : (d < 2)%nat -> length ix = 2%nat -> lower (1 - d) (rev ix) = rev (lower d ix).
Proof. intros Hd HL. destruct ix as [|u [|v [|]]]; try discriminate HL. destruct d as [|[|d]]; [| |lia]; reflexivity. Qed.
Lemma rev_upper d ix : (d < 2)%nat -> length ix = 2%nat -> upper (1 - d) (rev ix) = rev (upper d ix).
Proof. intros Hd HL. destruct ix as [|u [|v [|]]]; try discriminate HL. destruct d as [|[|d]]; [| |lia]; reflexivity. Qed.
Lemma rev_put d v ix : (d < 2)%nat -> length ix = 2%nat -> put (1 - d) v (rev ix) = rev (put d v ix).
Proof. intros Hd HL. destruct ix as [|a [|b [|]]]; try discriminate HL. destruct d as [|[|d]]; [| |lia]; reflexivity. Qed.
Lemma rev_get d ix : (d < 2)%nat -> length ix = 2%nat -> get (1 - d) (rev ix) = get d ix.
Proof. intros Hd HL. destruct ix as [|a [|b [|]]]; try discriminate HL. destruct d as [|[|d]]; [| |lia]; reflexivity. Qed.
Lemma lower_length d ix : length (lower d ix) = length ix.
Proof. apply put_length. Qed.
Lemma upper_length d ix : length (upper d ix) = length ix.
Proof. apply put_length. Qed.
Lemma sub_sub d : (d < 2)%nat -> (1 - (1 - d))%nat = d.
Proof. lia. Qed.

Section X.
Variable undef : Q -> Q -> Z -> Q.
Variable S : msettings.
Variable trans : Z.
Variables nx ny : Z.
Notation T := (exchanged S).
Notation neq := (n_neq S).
Notation naux := (n_naux S).
Notation g := (Z.of_nat (n_ng S)).
Hypothesis Hns : map ncells (n_bcs S) = [nx; ny].
Hypothesis Hlen : length (n_bcs S) = 2%nat.
Hypothesis Hg : (2 <= n_ng S)%nat.
Hypothesis Hn : (1 <= nx)%Z /\ (1 <= ny)%Z.
Hypothesis Hk : mcapa_in_aux S.
Variables aux aux' : arr Q.
(** Inside the ghosted array *)
Definition inb (ix : list Z) : Prop := length ix = 2%nat /\ (0 <= get 0 ix < nx + 2 * g)%Z /\ (0 <= get 1 ix < ny + 2 * g)%Z.
Definition agree (n : nat) (x x' : arr Q) : Prop := forall c ix, (0 <= c < Z.of_nat n)%Z -> inb ix -> x' c (rev ix) = x c ix.
Hypothesis Ha : agree naux aux aux'.
Variables x x' : arr Q.
Hypothesis Hx : agree neq x x'.

Lemma cv n y y' ix : agree n y y' -> inb ix -> cell_vec n y' (rev ix) = cell_vec n y ix.
Proof. intros H I. unfold cell_vec. apply vec_ext. intros c Hc. apply H; assumption. Qed.
Lemma ratio_x d ix : (d < 2)%nat -> inb ix -> cell_ratio T (1 - d) aux' (rev ix) = cell_ratio S d aux ix.
Proof.
  intros Hd I. unfold cell_ratio, exchanged. cbn [n_capa n_dt n_delta]. rewrite (sub_sub d Hd).
  destruct (n_capa S) as [k|] eqn:E; [|reflexivity]. rewrite (Ha k ix); [reflexivity|exact (Hk k E)|exact I].
Qed.
Lemma capacity_x ix : inb ix -> mcapacity T aux' (rev ix) = mcapacity S aux ix.
Proof. intro I. unfold mcapacity, exchanged. cbn [n_capa]. destruct (n_capa S) as [k|] eqn:E; [|reflexivity]. apply Ha; [exact (Hk k E)|exact I]. Qed.
Lemma face_x d ix : (d < 2)%nat -> inb ix -> inb (lower d ix) -> at_face T aux' x' (1 - d) (rev ix) = at_face S aux x d ix.
Proof.
  intros Hd I J. unfold at_face. rewrite (rev_lower d ix Hd (proj1 I)). unfold exchanged. cbn [n_neq n_naux n_rpn]. rewrite (sub_sub d Hd).
  rewrite (cv neq x x' _ Hx I), (cv neq x x' _ Hx J), (cv naux aux aux' _ Ha I), (cv naux aux aux' _ Ha J). reflexivity.
Qed.
Lemma dot_x d ix ix' p : (d < 2)%nat -> inb ix -> inb (lower d ix) -> inb ix' -> inb (lower d ix') ->
  dot T aux' x' (1 - d) (rev ix) (rev ix') p = dot S aux x d ix ix' p.
Proof.
  intros Hd I J I' J'. unfold dot. cbn [exchanged n_neq]. apply zsum_ext. intros m Hm. unfold face_wave.
  rewrite (face_x d ix Hd I J), (face_x d ix' Hd I' J'). reflexivity.
Qed.
(** The cells that the limited wave at a face looks at *)
Definition around (d : nat) (ix : list Z) : Prop := inb ix /\ inb (lower d ix) /\ inb (lower d (lower d ix)) /\ inb (upper d ix).
Lemma lower_upper d ix : (d < 2)%nat -> length ix = 2%nat -> lower d (upper d ix) = ix.
Proof.
  intros Hd HL. destruct ix as [|a [|b [|]]]; try discriminate HL. unfold lower, upper.
  destruct d as [|[|d]]; [| |lia]; cbn [put get]; [replace (a + 1 - 1)%Z with a by lia|replace (b + 1 - 1)%Z with b by lia]; reflexivity.
Qed.
Lemma limited_x d ix m p : (d < 2)%nat -> around d ix ->
  limited_wave undef T aux' x' (1 - d) (rev ix) m p = limited_wave undef S aux x d ix m p.
Proof.
  intros Hd (I & J & K & L). unfold limited_wave. cbv zeta. cbn [exchanged n_nw n_mthlim]. fold (exchanged S).
  rewrite (dot_x d ix ix p Hd I J I J). unfold face_wave. rewrite (face_x d ix Hd I J).
  rewrite (rev_lower d ix Hd (proj1 I)), (rev_upper d ix Hd (proj1 I)).
  rewrite (dot_x d (lower d ix) ix p Hd J K I J).
  rewrite (dot_x d ix (upper d ix) p Hd I J L); [reflexivity|]. rewrite lower_upper; [exact I|exact Hd|exact (proj1 I)].
Qed.
Lemma correction_x d ix m : (d < 2)%nat -> around d ix ->
  correction undef T aux' x' (1 - d) (rev ix) m = correction undef S aux x d ix m.
Proof.
  intros Hd A. pose proof A as (I & J & _). unfold correction. cbv zeta. cbn [exchanged n_nw n_fwave]. fold (exchanged S).
  rewrite (rev_lower d ix Hd (proj1 I)), (ratio_x d ix Hd I), (ratio_x d _ Hd J).
  apply zsum_ext. intros p Hp. rewrite (face_x d ix Hd I J), (limited_x d ix m p Hd A). reflexivity.
Qed.
Lemma parts_x d ix m : (d < 2)%nat -> around d ix ->
  down_part undef T trans aux' x' (1 - d) (rev ix) m = down_part undef S trans aux x d ix m /\
  up_part undef T trans aux' x' (1 - d) (rev ix) m = up_part undef S trans aux x d ix m.
Proof.
  intros Hd A. pose proof A as (I & J & _). unfold down_part, up_part, with_correction. cbn [exchanged n_order]. fold (exchanged S).
  rewrite (face_x d ix Hd I J), (correction_x d ix m Hd A). auto.
Qed.
Definition flanked (d : nat) (ix : list Z) : Prop := inb ix /\ inb (lower (1 - d) ix) /\ inb (upper (1 - d) ix).
Lemma column_x d ix : (d < 2)%nat -> flanked d ix -> column T aux' (1 - d) (rev ix) = column S aux d ix.
Proof.
  intros Hd (I & J & K). unfold column. cbn [exchanged n_naux]. 
  rewrite (rev_lower (1 - d) ix ltac:(lia) (proj1 I)), (rev_upper (1 - d) ix ltac:(lia) (proj1 I)).
  rewrite (cv naux aux aux' _ Ha I), (cv naux aux aux' _ Ha J), (cv naux aux aux' _ Ha K). reflexivity.
Qed.
Definition room (d : nat) (ix : list Z) : Prop := around d ix /\ flanked d ix /\ flanked d (lower d ix).
Lemma transverse_x d ix imp p p' : (d < 2)%nat -> room d ix -> (forall m, p' (rev ix) m = p ix m) ->
  transverse T aux' x' (1 - d) (rev ix) imp p' = transverse S aux x d ix imp p.
Proof.
  intros Hd ((I & J & _) & F1 & F2) E. unfold transverse. rewrite (rev_lower d ix Hd (proj1 I)), (column_x d ix Hd F1), (column_x d _ Hd F2).
  cbn [exchanged n_neq n_rpt]. rewrite (sub_sub d Hd). rewrite (cv neq x x' _ Hx I), (cv neq x x' _ Hx J). f_equal.
  unfold cell_vec. apply vec_ext. intros c Hc. apply E.
Qed.
Definition rooms (d : nat) (ix : list Z) : Prop := room d ix /\ room d (upper d ix).
Lemma leaves_x d ix m : (d < 2)%nat -> rooms d ix ->
  leaves_down undef T trans aux' x' (1 - d) (rev ix) m = leaves_down undef S trans aux x d ix m /\
  leaves_up undef T trans aux' x' (1 - d) (rev ix) m = leaves_up undef S trans aux x d ix m.
Proof.
  intros Hd (A & B). pose proof A as ((I & _) & _). unfold leaves_down, leaves_up. rewrite (rev_upper d ix Hd (proj1 I)), (ratio_x d ix Hd I).
  rewrite (transverse_x d ix 2 (up_part undef S trans aux x d) (up_part undef T trans aux' x' (1 - d)) Hd A) by (intro; apply parts_x; [exact Hd|apply A]).
  rewrite (transverse_x d (upper d ix) 1 (down_part undef S trans aux x d) (down_part undef T trans aux' x' (1 - d)) Hd B) by (intro; apply parts_x; [exact Hd|apply B]).
  auto.
Qed.
Lemma change_x d ix m : (d < 2)%nat -> rooms d ix -> rooms d (lower (1 - d) ix) -> rooms d (upper (1 - d) ix) ->
  transverse_change undef T trans aux' x' (1 - d) (rev ix) m = transverse_change undef S trans aux x d ix m.
Proof.
  intros Hd A B C. pose proof A as (((I & _) & _) & _). unfold transverse_change. destruct (Z.leb trans 0); [reflexivity|].
  rewrite (capacity_x ix I). unfold transverse_flux.
  rewrite (rev_upper (1 - d) ix ltac:(lia) (proj1 I)), (rev_lower (1 - d) ix ltac:(lia) (proj1 I)).
  assert (L : length (upper (1 - d) ix) = 2%nat) by (rewrite upper_length; exact (proj1 I)).
  rewrite (rev_lower (1 - d) (upper (1 - d) ix) ltac:(lia) L), (lower_upper (1 - d) ix ltac:(lia) (proj1 I)).
  destruct (leaves_x d ix m Hd A) as (A1 & A2). destruct (leaves_x d _ m Hd B) as (B1 & B2). destruct (leaves_x d _ m Hd C) as (C1 & C2).
  rewrite A1, A2, B2, C1. unfold exchanged. cbn [n_dt n_delta]. rewrite (sub_sub (1 - d)) by lia. reflexivity.
Qed.
Lemma inside_rooms d a b : (d < 2)%nat -> (g <= a < g + nx)%Z -> (g <= b < g + ny)%Z ->
  rooms d [a; b] /\ rooms d (lower (1 - d) [a; b]) /\ rooms d (upper (1 - d) [a; b]).
Proof.
  intros Hd A B. unfold rooms, room, around, flanked, inb, upper, lower.
  destruct d as [|[|d]]; [| |lia]; cbn [Nat.sub put get length]; repeat (split; try reflexivity); lia.
Qed.

(** Sweeps *)
Lemma T_ns : map ncells (n_bcs T) = [ny; nx].
Proof. cbn [exchanged n_bcs]. rewrite map_rev, Hns. reflexivity. Qed.
Lemma T_len : length (n_bcs T) = 2%nat.
Proof. cbn [exchanged n_bcs]. rewrite rev_length. exact Hlen. Qed.
Lemma T_mx d : (d < 2)%nat -> nth (1 - d) (map ncells (n_bcs T)) 0%Z = nth d (map ncells (n_bcs S)) 0%Z.
Proof. intro Hd. rewrite T_ns, Hns. destruct d as [|[|d]]; [| |lia]; reflexivity. Qed.
Lemma slice_x n y y' d ix c i : agree n y y' -> (d < 2)%nat -> length ix = 2%nat -> (0 <= c < Z.of_nat n)%Z -> inb (put d (i + g - 1)%Z ix) ->
  slice (n_ng S) (1 - d) (put (1 - d) 0 (rev ix)) y' c i = slice (n_ng S) d (put d 0 ix) y c i.
Proof.
  intros H Hd HL Hc I. unfold slice. rewrite !put_put, (rev_put d _ ix Hd HL). apply H; assumption.
Qed.
Lemma put_inb d ix i : (d < 2)%nat -> inb ix -> (1 - g <= i <= nth d (map ncells (n_bcs S)) 0 + g)%Z -> inb (put d (i + g - 1)%Z ix).
Proof.
  intros Hd (HL & I0 & I1) Hi. rewrite Hns in Hi. destruct ix as [|a [|b [|]]]; try discriminate HL. unfold inb.
  destruct d as [|[|d]]; [| |lia]; cbn [put get length nth] in *; repeat split; try reflexivity; lia.
Qed.
Lemma line_x d ix m : (d < 2)%nat -> inb ix -> (0 <= m < Z.of_nat neq)%Z ->
  let i := (get d ix - g + 1)%Z in (1 <= i <= nth d (map ncells (n_bcs S)) 0)%Z ->
  line_change T (1 - d) (line_flux undef T (1 - d) (put (1 - d) 0 (rev ix)) aux' x') (slice (n_ng S) (1 - d) (put (1 - d) 0 (rev ix)) aux') (x' m (rev ix)) m i =
  line_change S d (line_flux undef S d (put d 0 ix) aux x) (slice (n_ng S) d (put d 0 ix) aux) (x m ix) m i.
Proof.
  intros Hd I Hm i Hi. set (mx := nth d (map ncells (n_bcs S)) 0%Z) in *.
  set (s := slice (n_ng S) d (put d 0 ix) x). set (a := slice (n_ng S) d (put d 0 ix) aux).
  set (s' := slice (n_ng S) (1 - d) (put (1 - d) 0 (rev ix)) x'). set (a' := slice (n_ng S) (1 - d) (put (1 - d) 0 (rev ix)) aux').
  set (D := line_dtdx S d a). set (D' := line_dtdx T (1 - d) a').
  assert (SA : forall e c, (0 <= c < Z.of_nat naux)%Z -> (1 - g <= e <= mx + g)%Z -> a' c e = a c e).
  { intros e c Hc He. apply (slice_x naux aux aux'); [exact Ha|exact Hd|exact (proj1 I)|exact Hc|]. apply put_inb; assumption. }
  assert (SQ : forall e c, (0 <= c < Z.of_nat neq)%Z -> (1 - g <= e <= mx + g)%Z -> s' c e = s c e).
  { intros e c Hc He. apply (slice_x neq x x'); [exact Hx|exact Hd|exact (proj1 I)|exact Hc|]. apply put_inb; assumption. }
  assert (DE : forall e, (1 - g <= e <= mx + g)%Z -> D' e = D e).
  { intros e He. unfold D, D', line_dtdx, exchanged. cbn [n_capa n_dt n_delta]. rewrite (sub_sub d Hd).
    destruct (n_capa S) as [k|] eqn:E; [|reflexivity]. rewrite (SA e k (Hk k E) He). reflexivity. }
  assert (N : forall e, (1 <= e <= mx + 1)%Z -> near neq naux 2 s' D' a' e s D a e).
  { intros e He k Hkk. split; [|split]; [apply vec_ext; intros; apply SQ|apply vec_ext; intros; apply SA|apply DE]; try assumption; lia. }
  pose proof (reach_1 (n_nw S) (n_order S) (n_mthlim S)) as R1.
  assert (R2 : (reach (n_nw S) (n_order S) (n_mthlim S) <= 2)%Z) by (unfold reach; destruct (small_stencil _ _ _); lia).
  unfold line_change, line_flux. cbv zeta. rewrite (T_mx d Hd). cbn [exchanged n_neq n_nw n_naux n_ng n_fwave n_order n_mthlim n_rpn n_capa n_dt n_delta]. rewrite !(sub_sub d Hd).
  fold (exchanged S). fold mx. fold s a s' a'. fold D D'. rewrite !qadd_at by lia.
  destruct (near_R neq naux (n_rpn S d) _ _ _ _ _ _ i i (near_weaken _ _ _ _ _ _ _ _ 2 1 i i ltac:(lia) (N i ltac:(lia)))) as (_ & _ & _ & A1).
  destruct (near_R neq naux (n_rpn S d) _ _ _ _ _ _ (i + 1)%Z (i + 1)%Z (near_weaken _ _ _ _ _ _ _ _ 2 1 (i + 1) (i + 1) ltac:(lia) (N (i + 1)%Z ltac:(lia)))) as (_ & _ & A2 & _).
  assert (E2 : forall e, (1 <= e <= mx + 1)%Z ->
     fadd (flux2 neq (n_nw S) naux g mx (n_fwave S) (n_order S) (-1) (n_mthlim S) undef (n_rpn S d) no_rpt s' D' a' a' a') m e =
     fadd (flux2 neq (n_nw S) naux g mx (n_fwave S) (n_order S) (-1) (n_mthlim S) undef (n_rpn S d) no_rpt s D a a a) m e).
  { intros e He. apply near_fadd; try lia. apply (near_weaken _ _ _ _ _ _ _ _ 2); [exact R2|apply N; exact He]. }
  rewrite A1, A2, !E2, (DE i) by lia. rewrite (Hx m ix Hm I).
  destruct (n_capa S) as [k|] eqn:Ek; [|reflexivity]. rewrite (SA i k (Hk k Ek)) by lia. reflexivity.
Qed.
Lemma visited_x d ix : (d < 2)%nat -> length ix = 2%nat -> visited T (1 - d) (rev ix) <-> visited S d ix.
Proof.
  intros Hd HL. unfold visited. rewrite rev_length, T_len, Hlen, T_ns, Hns.
  assert (L : layers T = layers S).
  { unfold layers. cbn [exchanged n_bcs n_ng]. pose proof Hlen as H. destruct (n_bcs S) as [|D1 [|D2 [|]]]; try discriminate H. reflexivity. }
  rewrite L. cbn [exchanged n_ng]. destruct ix as [|a [|b [|]]]; try discriminate HL. cbn [rev app length].
  split; intros (_ & H); (split; [reflexivity|]); intros j Hj; pose proof (H 0%nat ltac:(lia)) as H0; pose proof (H 1%nat ltac:(lia)) as H1;
    destruct d as [|[|d]]; [| |lia| | |lia]; destruct j as [|[|j]]; try lia; cbn [Nat.sub Nat.eqb get nth] in *; lia.
Qed.
Lemma n_nonneg : Forall (fun n => 0 <= n)%Z (map ncells (n_bcs S)) /\ Forall (fun n => 0 <= n)%Z (map ncells (n_bcs T)).
Proof. rewrite T_ns, Hns. destruct Hn. split; repeat constructor; lia. Qed.
Lemma sweep_x d m ix alias alias' : (d < 2)%nat -> inb ix -> (0 <= m < Z.of_nat neq)%Z ->
  fst (sweep undef T (layers T) alias' (1 - d) aux' x' x') m (rev ix) = fst (sweep undef S (layers S) alias d aux x x) m ix.
Proof.
  intros Hd I Hm. destruct n_nonneg as (N1 & N2).
  destruct (sweep_at undef S ltac:(lia) N1 (layers S) alias d aux x (layers_nonneg S) ltac:(lia)) as [A _].
  destruct (sweep_at undef T ltac:(cbn [exchanged n_ng]; lia) N2 (layers T) alias' (1 - d) aux' x' (layers_nonneg T) ltac:(rewrite T_len; lia)) as [B _].
  rewrite A by exact Hm. rewrite B by exact Hm. unfold sweep_value.
  pose proof (visited_swept S ltac:(lia) N1 d ix ltac:(lia)) as V. pose proof (visited_swept T ltac:(cbn [exchanged n_ng]; lia) N2 (1 - d) (rev ix) ltac:(rewrite T_len; lia)) as W.
  pose proof (visited_x d ix Hd (proj1 I)) as X. rewrite V, W in X. rewrite rev_length, T_ns, Hns, (proj1 I) in X. cbn [length] in X.
  assert (E : swept T (layers T) (1 - d) (rev ix) = swept S (layers S) d ix).
  { destruct (swept T (layers T) (1 - d) (rev ix)), (swept S (layers S) d ix); try reflexivity; exfalso;
      [assert (K : 2%nat = 2%nat /\ false = true) by (apply X; split; reflexivity)|assert (K : 2%nat = 2%nat /\ false = true) by (apply X; split; reflexivity)]; destruct K as (_ & K); discriminate K. }
  rewrite E. destruct (swept S (layers S) d ix) eqn:Es; [|apply Hx; assumption].
  rewrite (rev_get d ix Hd (proj1 I)). apply line_x; try assumption.
  unfold swept in Es. apply andb_true_iff in Es. destruct Es as [_ Es]. unfold in_slice in Es. lia.
Qed.

(** One unsplit step on ghosted arrays *)
Lemma step2_x m a b : (0 <= m < Z.of_nat neq)%Z -> (g <= a < g + nx)%Z -> (g <= b < g + ny)%Z ->
  fst (step2 undef T trans aux' x' x') m [b; a] == fst (step2 undef S trans aux x x) m [a; b].
Proof.
  intros Hm A B. destruct n_nonneg as (N1 & N2).
  assert (I : inb [a; b]) by (unfold inb; cbn [length get]; repeat split; lia).
  assert (IS : interior S [a; b]).
  { split; [reflexivity|]. rewrite Hns. intros [|[|d]] Hd; cbn [get nth]; lia. }
  assert (IT : interior T [b; a]).
  { split; [reflexivity|]. rewrite T_ns. cbn [exchanged n_ng]. intros [|[|d]] Hd; cbn [get nth]; lia. }
  rewrite (step2_value undef S trans ltac:(lia) aux x Hlen N1 (layers S) m [a; b] (layers_nonneg S) IS).
  rewrite (step2_value undef T trans ltac:(cbn [exchanged n_ng]; lia) aux' x' T_len N2 (layers T) m [b; a] (layers_nonneg T) IT).
  destruct (sweep_at undef S ltac:(lia) N1 (layers S) false 0 aux x (layers_nonneg S) ltac:(lia)) as [A0 _].
  destruct (sweep_at undef S ltac:(lia) N1 (layers S) false 1 aux x (layers_nonneg S) ltac:(lia)) as [A1 _].
  destruct (sweep_at undef T ltac:(cbn [exchanged n_ng]; lia) N2 (layers T) false 0 aux' x' (layers_nonneg T) ltac:(rewrite T_len; lia)) as [B0 _].
  destruct (sweep_at undef T ltac:(cbn [exchanged n_ng]; lia) N2 (layers T) false 1 aux' x' (layers_nonneg T) ltac:(rewrite T_len; lia)) as [B1 _].
  rewrite <- A0, <- A1, <- B0, <- B1 by exact Hm.
  pose proof (sweep_x 0 m [a; b] false false ltac:(lia) I Hm) as S0. pose proof (sweep_x 1 m [a; b] false false ltac:(lia) I Hm) as S1.
  cbn [Nat.sub rev app] in S0, S1. rewrite S0, S1.
  assert (TT : forall d, (d < 2)%nat -> t_trans undef T trans aux' x' (1 - d) m [b; a] == t_trans undef S trans aux x d m [a; b]).
  { intros d Hd. destruct (Z.leb_spec trans 0) as [K|K].
    - unfold t_trans, t_flux, flux2. cbv zeta. replace (Z.leb trans 0) with true by lia. cbn [gadd1 gadd2]. cbn [exchanged n_capa]. destruct (n_capa S); unfold Qdiv; ring.
    - rewrite (t_trans_R undef S trans aux x K d m [a; b] Hd IS), (t_trans_R undef T trans aux' x' K (1 - d) m [b; a] ltac:(lia) IT).
      destruct (inside_rooms d a b Hd A B) as (R1 & R2 & R3). change [b; a] with (rev [a; b]). rewrite (change_x d [a; b] m Hd R1 R2 R3). reflexivity. }
  pose proof (TT 0%nat ltac:(lia)) as T0. pose proof (TT 1%nat ltac:(lia)) as T1. cbn [Nat.sub] in T0, T1. rewrite T0, T1.
  change [b; a] with (rev [a; b]). rewrite (Hx m [a; b] Hm I). ring.
Qed.
End X.
