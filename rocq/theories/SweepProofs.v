(** Proofs about the multi-dimensional classic solvers, part 1: index lists, sums over boxes, one slice. *)
From Coq Require Import FinFun.
From Verif Require Import Base BCModel BCSpec BCProofs LimiterModel LimiterProofs Classic1DModel Classic1DSpec
  Classic1DProofs Classic1DProofs2 ParallelProofs2 SweepModel SweepSpec.

(** ** Index lists *)
Lemma put_put d v w l : put d v (put d w l) = put d v l.
Proof. revert d. induction l as [|i l IH]; intros [|d]; cbn [put]; try reflexivity. rewrite IH. reflexivity. Qed.
Lemma get_put d v l : (d < length l)%nat -> get d (put d v l) = v.
Proof. revert d. induction l as [|i l IH]; intros [|d] H; cbn [put get length] in *; try lia; try reflexivity. apply IH. lia. Qed.
Lemma put_get d l : put d (get d l) l = l.
Proof. revert d. induction l as [|i l IH]; intros [|d]; cbn [put get]; try reflexivity. rewrite IH. reflexivity. Qed.
Lemma put_length d v l : length (put d v l) = length l.
Proof. revert d. induction l as [|i l IH]; intros [|d]; cbn [put length]; try reflexivity. rewrite IH. reflexivity. Qed.
Lemma get_put_other d e v l : d <> e -> get e (put d v l) = get e l.
Proof.
  revert d e. induction l as [|i l IH]; intros [|d] [|e] H; cbn [put get]; try reflexivity; try lia.
  apply IH. lia.
Qed.
Lemma get_nth d l : get d l = nth d l 0%Z.
Proof. revert d. induction l as [|i l IH]; intros [|d]; cbn [get nth]; auto. Qed.
Lemma list_get_ext l l' : length l = length l' -> (forall d, (d < length l)%nat -> get d l = get d l') -> l = l'.
Proof.
  revert l'. induction l as [|i l IH]; intros [|j l'] HL H; cbn [length] in *; try lia; [reflexivity|].
  f_equal; [apply (H 0%nat); lia|]. apply IH; [lia|]. intros d Hd. apply (H (S d)). lia.
Qed.
Lemma zlist_eqb_eq a b : zlist_eqb a b = true <-> a = b.
Proof.
  revert b. induction a as [|x a IH]; intros [|y b]; cbn [zlist_eqb]; split; intros H; try discriminate; try reflexivity.
  - apply andb_true_iff in H. destruct H as [H1 H2]. apply IH in H2. f_equal; [lia|exact H2].
  - injection H as -> ->. rewrite (proj2 (IH b) eq_refl), Z.eqb_refl. reflexivity.
Qed.
Lemma zlist_eqb_refl a : zlist_eqb a a = true.
Proof. apply zlist_eqb_eq. reflexivity. Qed.
Lemma zlist_eqb_neq a b : a <> b -> zlist_eqb a b = false.
Proof. intros H. apply not_true_is_false. intros E. apply zlist_eqb_eq in E. contradiction. Qed.

(** ** The slices of a sweep *)
Lemma forall2_inv {A B} (P : A -> B -> Prop) x l y l' : Forall2 P (x :: l) (y :: l') -> P x y /\ Forall2 P l l'.
Proof. intros H. inversion H. auto. Qed.
Lemma cart_in rs l : In l (cart rs) <-> Forall2 (fun x r => In x r) l rs.
Proof.
  revert l. induction rs as [|r rs IH]; intros l; cbn [cart].
  - split.
    + intros [<-|[]]. constructor.
    + intros H. inversion H. left. reflexivity.
  - rewrite in_flat_map. split.
    + intros (l' & H1 & H2). apply in_map_iff in H2. destruct H2 as (x & <- & Hx). constructor; [exact Hx|]. apply IH. exact H1.
    + intros H. inversion H as [|x r' l' rs' Hx Hl]; subst. exists l'. split; [apply IH; exact Hl|]. apply in_map_iff. eauto.
Qed.
Lemma cart_nodup rs : Forall (@NoDup Z) rs -> NoDup (cart rs).
Proof.
  induction rs as [|r rs IH]; intros H; cbn [cart]; [repeat constructor; simpl; tauto|].
  inversion H as [|r' rs' Hr Hrs]; subst. specialize (IH Hrs). revert IH. generalize (cart rs) as ls.
  induction ls as [|l ls IHl]; intros Hl; cbn [flat_map]; [constructor|].
  inversion Hl as [|l' ls' Hn Hl']; subst. specialize (IHl Hl').
  assert (D : forall x, In x (map (fun x => x :: l) r) -> ~ In x (flat_map (fun l => map (fun x => x :: l) r) ls)).
  { intros x Hx Hx'. apply in_map_iff in Hx. destruct Hx as (a & <- & Ha). apply in_flat_map in Hx'.
    destruct Hx' as (l' & H1 & H2). apply in_map_iff in H2. destruct H2 as (b & E & Hb). injection E as -> ->. contradiction. }
  assert (N : NoDup (map (fun x => x :: l) r)).
  { apply Injective_map_NoDup; [|exact Hr]. intros a b E. congruence. }
  revert N D. generalize (map (fun x => x :: l) r) as xs. clear -IHl.
  induction xs as [|x xs IHx]; intros N D; cbn [app]; [exact IHl|].
  inversion N; subst. constructor.
  - rewrite in_app_iff. intros [Hi|Hi]; [contradiction|]. exact (D x (or_introl eq_refl) Hi).
  - apply IHx; [assumption|]. intros y Hy. apply D. right. exact Hy.
Qed.
Lemma zrange_nodup lo n : NoDup (zrange lo n).
Proof. unfold zrange. apply Injective_map_NoDup; [|apply seq_NoDup]. intros a b E. lia. Qed.
Lemma lines_nodup d ng ext ns : NoDup (lines d ng ext ns).
Proof.
  unfold lines. apply cart_nodup. generalize 0%nat as k. induction ns as [|n ns IH]; intros k; cbn [lines_from]; constructor.
  - destruct (Nat.eqb k d); [repeat constructor; simpl; tauto|apply zrange_nodup].
  - apply IH.
Qed.
Lemma lines_from_in d ng ext ns : (0 <= ext)%Z -> Forall (fun n => 0 <= n)%Z ns -> forall k b,
  In b (cart (lines_from k d ng ext ns)) <->
  length b = length ns /\ forall j, (j < length ns)%nat ->
    if Nat.eqb (k + j) d then get j b = 0%Z
    else (Z.of_nat ng - ext <= get j b < Z.of_nat ng + nth j ns 0 + ext)%Z.
Proof.
  intros Hx Hn. induction ns as [|n ns IH]; intros k b.
  - rewrite cart_in. cbn [lines_from length]. split.
    + intros H. inversion H. split; [reflexivity|]. intros; lia.
    + intros [H _]. destruct b; [constructor|discriminate].
  - inversion Hn as [|n' ns' Hn1 Hn2]; subst. cbv beta in Hn1. specialize (IH Hn2 (S k)). rewrite cart_in in *. cbn [lines_from]. split.
    + intros H. destruct b as [|x b']; [inversion H|]. apply forall2_inv in H. destruct H as [H1 H2].
      rewrite <- cart_in in H2. apply IH in H2. destruct H2 as [L H2].
      split; [cbn [length]; lia|]. intros [|j] Hj; cbn [get nth].
      * replace (k + 0)%nat with k by lia. destruct (Nat.eqb k d); [destruct H1 as [H1|[]]; lia|]. apply zrange_in in H1. lia.
      * replace (k + S j)%nat with (S k + j)%nat by lia. apply H2. cbn [length] in Hj. lia.
    + intros [L H]. destruct b as [|x b]; [discriminate|]. constructor.
      * specialize (H 0%nat ltac:(cbn [length]; lia)). cbn [get nth] in H. replace (k + 0)%nat with k in H by lia.
        destruct (Nat.eqb k d); [left; lia|]. apply zrange_in. lia.
      * apply cart_in, IH. split; [cbn [length] in L; lia|].
        intros j Hj. specialize (H (S j) ltac:(cbn [length]; lia)). cbn [get nth] in H.
        replace (S k + j)%nat with (k + S j)%nat by lia. exact H.
Qed.
Lemma lines_in d ng ext ns b : (0 <= ext)%Z -> Forall (fun n => 0 <= n)%Z ns ->
  In b (lines d ng ext ns) <->
  length b = length ns /\ forall j, (j < length ns)%nat ->
    if Nat.eqb j d then get j b = 0%Z
    else (Z.of_nat ng - ext <= get j b < Z.of_nat ng + nth j ns 0 + ext)%Z.
Proof. intros. apply (lines_from_in d ng ext ns); assumption. Qed.
Lemma lines_put d ng ext ns b : (0 <= ext)%Z -> Forall (fun n => 0 <= n)%Z ns -> (d < length ns)%nat ->
  In b (lines d ng ext ns) -> put d 0 b = b.
Proof.
  intros Hx Hn Hd Hb. apply lines_in in Hb; [|assumption..]. destruct Hb as [L H]. specialize (H d Hd). rewrite Nat.eqb_refl in H.
  rewrite <- H at 1. apply put_get.
Qed.

(** ** Sums over boxes *)
Lemma zsum_swap a n b p (f : Z -> Z -> Q) :
  zsum a n (fun i => zsum b p (fun j => f i j)) == zsum b p (fun j => zsum a n (fun i => f i j)).
Proof.
  induction n; cbn [zsum].
  - symmetry. apply zsum_zero. reflexivity.
  - rewrite IHn. rewrite zsum_plus. reflexivity.
Qed.
Lemma boxsum_eq ns f g :
  (forall ix, length ix = length ns -> (forall j, (j < length ns)%nat -> (0 <= get j ix < nth j ns 0)%Z) -> f ix == g ix) ->
  boxsum ns f == boxsum ns g.
Proof.
  revert f g. induction ns as [|n ns IH]; intros f g H; cbn [boxsum].
  - apply H; [reflexivity|]. cbn [length]. intros; lia.
  - apply zsum_eq. intros i Hi. apply IH. intros ix HL Hj. apply H; [cbn [length]; lia|].
    intros [|j] Hj'; cbn [get nth]; [lia|]. apply Hj. cbn [length] in Hj'. lia.
Qed.
Lemma boxsum_zsum_swap ns lo n (f : Z -> list Z -> Q) :
  boxsum ns (fun ix => zsum lo n (fun i => f i ix)) == zsum lo n (fun i => boxsum ns (f i)).
Proof.
  revert f. induction ns as [|k ns IH]; intros f; cbn [boxsum]; [reflexivity|].
  rewrite zsum_swap. apply zsum_eq. intros i _. rewrite IH. reflexivity.
Qed.
(** Sum along dimension d first. *)
Lemma boxsum_dim d ns f : (d < length ns)%nat ->
  boxsum ns f == boxsum (put d 1 ns) (fun ix => zsum 0 (Z.to_nat (nth d ns 0%Z)) (fun i => f (put d i ix))).
Proof.
  revert d f. induction ns as [|n ns IH]; intros [|d] f Hd; cbn [length] in Hd; try lia; cbn [put boxsum nth].
  - change (Z.to_nat 1) with 1%nat. cbn [zsum]. rewrite boxsum_zsum_swap. ring.
  - apply zsum_eq. intros i Hi. rewrite (IH d) by lia. reflexivity.
Qed.

(** ** One slice *)
Section L.
Variables (neq nw naux : nat) (ng mx : Z).
Variable fwave : bool.
Variable order : Z.
Variable mthlim : Z -> Z.
Variable undef : Q -> Q -> Z -> Q.
Variable rp : rpsolver.
Variable rpt : rptsolver.
Notation R q a := (solve_rps rp neq naux (-1) q a).
Notation F q d a1 a a3 := (flux2 neq nw naux ng mx fwave order (-1) mthlim undef rp rpt q d a1 a a3).

(** The cells e-r .. e+r-1 around an interface look the same in two slices. *)
Definition near (r : Z) (q : Z -> Z -> Q) (d : Z -> Q) (a : Z -> Z -> Q) (e : Z) (q' : Z -> Z -> Q) (d' : Z -> Q) (a' : Z -> Z -> Q) (e' : Z) : Prop :=
  forall k, (- r <= k < r)%Z ->
  vec neq q (e + k) = vec neq q' (e' + k) /\ vec naux a (e + k) = vec naux a' (e' + k) /\ d (e + k)%Z = d' (e' + k)%Z.
Definition small_stencil : bool := (Z.eqb order 1 || negb (any_limiter nw mthlim))%bool.
Definition reach : Z := if small_stencil then 1 else 2.
Lemma reach_1 : (1 <= reach)%Z. Proof. unfold reach. destruct small_stencil; lia. Qed.

Section N.
Variables (q q' a a' : Z -> Z -> Q) (d d' : Z -> Q).

Lemma near_rp e e' k : near 1 q d a (e + k) q' d' a' (e' + k) ->
  rp (vec neq q (e + k + -1)) (vec neq q (e + k + -1 + 1)) (vec naux a (e + k + -1)) (vec naux a (e + k + -1 + 1)) =
  rp (vec neq q' (e' + k + -1)) (vec neq q' (e' + k + -1 + 1)) (vec naux a' (e' + k + -1)) (vec naux a' (e' + k + -1 + 1)).
Proof.
  intros H. destruct (H (-1)%Z ltac:(lia)) as (H1 & H2 & _). destruct (H 0%Z ltac:(lia)) as (H3 & H4 & _).
  replace (e + k + -1 + 1)%Z with (e + k + 0)%Z by lia. replace (e' + k + -1 + 1)%Z with (e' + k + 0)%Z by lia.
  rewrite H1, H2, H3, H4. reflexivity.
Qed.
Lemma near_weaken r s e e' : (s <= r)%Z -> near r q d a e q' d' a' e' -> near s q d a e q' d' a' e'.
Proof. intros Hs H k Hk. apply H. lia. Qed.
Lemma near_shift r e e' k : near r q d a e q' d' a' e' -> (Z.abs k + 1 <= r)%Z -> near 1 q d a (e + k) q' d' a' (e' + k).
Proof. intros H Hk l Hl. specialize (H (k + l)%Z ltac:(lia)). rewrite !Z.add_assoc in H. exact H. Qed.

Lemma near_R e e' : near 1 q d a e q' d' a' e' ->
  (forall m mw, wave (R q a) m mw e = wave (R q' a') m mw e') /\ (forall mw, spd (R q a) mw e = spd (R q' a') mw e') /\
  (forall m, amdq (R q a) m e = amdq (R q' a') m e') /\ (forall m, apdq (R q a) m e = apdq (R q' a') m e').
Proof.
  intros H. assert (E : near 1 q d a (e + 0) q' d' a' (e' + 0)) by (rewrite !Z.add_0_r; exact H).
  apply near_rp in E. rewrite !Z.add_0_r in E. cbn [solve_rps wave spd amdq apdq].
  rewrite E. auto.
Qed.

Definition lim_waves (q a : Z -> Z -> Q) : Z -> Z -> Z -> Q :=
  if any_limiter nw mthlim then f_limiter neq mx mthlim undef (wave (R q a)) (spd (R q a)) else wave (R q a).
Lemma near_lim m mw e e' : (0 <= m < Z.of_nat neq)%Z -> order <> 1%Z -> near reach q d a e q' d' a' e' ->
  (1 <= e <= mx + 1)%Z -> (1 <= e' <= mx + 1)%Z ->
  lim_waves q a m mw e = lim_waves q' a' m mw e'.
Proof.
  intros Hm Ho H He He'. unfold lim_waves. unfold reach, small_stencil in H. replace (Z.eqb order 1) with false in H by lia.
  cbn [orb] in H. destruct (any_limiter nw mthlim); cbn [negb] in H.
  - assert (W : forall k, (-1 <= k <= 1)%Z -> near 1 q d a (e + k) q' d' a' (e' + k)).
    { intros k Hk. apply (near_shift 2); [exact H|lia]. }
    unfold f_limiter. destruct (Z.eqb (mthlim mw) 0).
    + apply near_R. apply (near_weaken 2); [lia|exact H].
    + replace (Z.to_nat (mx + 2)) with (S (Z.to_nat (mx + 1))) by lia.
      rewrite !f_limiter_exact by lia. apply f_lim_at_same; [exact Hm| |].
      * intros k l Hk Hl. apply (near_R (e + l) (e' + l)). apply W. lia.
      * apply near_R. apply (near_weaken 2); [lia|exact H].
  - apply near_R. exact H.
Qed.

Lemma near_fadd a1 a3 a1' a3' m e e' : (0 <= m < Z.of_nat neq)%Z -> near reach q d a e q' d' a' e' ->
  (1 <= ng)%Z -> (1 <= e <= mx + 1)%Z -> (1 <= e' <= mx + 1)%Z ->
  fadd (F q d a1 a a3) m e = fadd (F q' d' a1' a' a3') m e'.
Proof.
  intros Hm H Hg He He'. unfold flux2. change (Z.leb (-1) 0) with true. cbn [fadd].
  destruct (Z.eqb_spec order 1) as [_|Ho]; cbn [negb andb]; [reflexivity|].
  assert (E : f_cqxx nw fwave d (spd (R q a)) (lim_waves q a) m e = f_cqxx nw fwave d' (spd (R q' a')) (lim_waves q' a') m e').
  { assert (N1 : near 1 q d a e q' d' a' e') by (apply (near_weaken reach); [apply reach_1|exact H]).
    destruct (near_R e e' N1) as (_ & S1 & _).
    unfold f_cqxx. destruct (N1 (-1)%Z ltac:(lia)) as (_ & _ & D1). destruct (N1 0%Z ltac:(lia)) as (_ & _ & D2).
    rewrite !Z.add_0_r in D2. replace (e + -1)%Z with (e - 1)%Z in D1 by lia. replace (e' + -1)%Z with (e' - 1)%Z in D1 by lia.
    rewrite D1, D2. apply zsum_ext. intros mw Hmw. rewrite S1, (near_lim m mw e e' Hm Ho H He He'). reflexivity. }
  fold (lim_waves q a). fold (lim_waves q' a').
  rewrite !in_slice_true by lia. rewrite E. reflexivity.
Qed.
Lemma qadd_at a1 a3 m i : (1 <= i <= mx)%Z ->
  qadd (F q d a1 a a3) m i = 0 - d i * apdq (R q a) m i - d i * amdq (R q a) m (i + 1)%Z.
Proof.
  intros Hi. unfold flux2. change (Z.leb (-1) 0) with true. cbn [qadd]. unfold f_godunov.
  rewrite !in_slice_true by lia. reflexivity.
Qed.
Lemma cfl_same a1 a3 a1' a3' : (forall e, (1 <= e <= mx + 1)%Z -> near 1 q d a e q' d' a' e) ->
  cfl1d (F q d a1 a a3) = cfl1d (F q' d' a1' a' a3').
Proof.
  intros H. unfold flux2. change (Z.leb (-1) 0) with true. cbn [cfl1d]. unfold f_cfl.
  generalize (seq 0 nw) as ks. generalize 0 as c. intros c ks. revert c. induction ks as [|k ks IH]; intros c; cbn [fold_left]; [reflexivity|].
  rewrite <- IH. f_equal.
  assert (K : forall l c, (forall e, In e l -> (1 <= e <= mx + 1)%Z) ->
     fold_left (fun c i => pymax3 c (d i * spd (R q a) (Z.of_nat k) i) (- d (i - 1)%Z * spd (R q a) (Z.of_nat k) i)) l c =
     fold_left (fun c i => pymax3 c (d' i * spd (R q' a') (Z.of_nat k) i) (- d' (i - 1)%Z * spd (R q' a') (Z.of_nat k) i)) l c).
  { induction l as [|e l IHl]; intros c0 Hl; cbn [fold_left]; [reflexivity|].
    assert (He : (1 <= e <= mx + 1)%Z) by (apply Hl; left; reflexivity). specialize (H e He).
    destruct (near_R e e H) as (_ & S1 & _). rewrite S1.
    destruct (H (-1)%Z ltac:(lia)) as (_ & _ & D1). destruct (H 0%Z ltac:(lia)) as (_ & _ & D2).
    rewrite !Z.add_0_r in D2. replace (e + -1)%Z with (e - 1)%Z in D1 by lia. rewrite D1, D2. apply IHl. intros x Hx. apply Hl. right. exact Hx. }
  apply K. intros e He. apply zrange_in in He. lia.
Qed.
End N.
End L.
