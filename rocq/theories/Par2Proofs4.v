(** Proofs about parallel runs in more dimensions, part 4: the unsplit step in three dimensions. *)
From Verif Require Import Base BCModel BCSpec BCProofs LimiterModel LimiterProofs Classic1DModel Classic1DSpec
  Classic1DProofs Classic1DProofs2 ParallelModel ParallelProofs2 SweepModel SweepSpec SweepProofs SweepProofs2 SweepProofs3
  UnsplitProofs2 Unsplit3Model Unsplit3Spec Unsplit3Proofs Unsplit3Proofs2 Par2Model Par2Proofs Par2Proofs2 Par2Proofs3.

(** ** flux3 on a part of a slice *)
Section G.
Variables (neq nw naux : nat) (ng mx mx' s : Z).
Variable fwave : bool.
Variables (order trans : Z).
Variable mthlim : Z -> Z.
Variable undef : Q -> Q -> Z -> Q.
Variable rp : rpsolver.
Variable rpt : rpt3solver.
Variable rptt : rptt3solver.
Variables stale stale' : leftovers.
Hypothesis HD : described order trans.
Hypothesis Hg : (1 <= ng)%Z.
Hypothesis Hs : (0 <= s /\ mx + s <= mx')%Z.
Variables (q q' : Z -> Z -> Q) (d d' : Z -> Q) (dy dz : Q) (A A' : list (Z -> Z -> Q)).
Hypothesis Hq : forall k, (-1 <= k <= mx + 2)%Z -> vec neq q k = vec neq q' (k + s).
Hypothesis HA : forall k, (-1 <= k <= mx + 2)%Z -> map (fun a => vec naux a k) A = map (fun a => vec naux a (k + s)%Z) A'.
Hypothesis Hd : forall k, (-1 <= k <= mx + 2)%Z -> d k = d' (k + s)%Z.

Lemma part_aux22 k : (-1 <= k <= mx + 2)%Z -> vec naux (aux22 A) k = vec naux (aux22 A') (k + s).
Proof.
  intros Hk. specialize (HA k Hk). unfold aux22.
  pose proof (map_nth (fun a => vec naux a k) A (fun _ _ => 0) 4) as E. pose proof (map_nth (fun a => vec naux a (k + s)%Z) A' (fun _ _ => 0) 4) as E'.
  cbv beta in E, E'. rewrite <- E, <- E', HA. reflexivity.
Qed.
Notation R q A := (rp_sol neq naux rp q A).
Lemma part_near r e : (r <= 2)%Z -> (1 <= e <= mx + 1)%Z -> near neq naux r q d (aux22 A) e q' d' (aux22 A') (e + s).
Proof.
  intros Hr He k Hk. replace (e + s + k)%Z with (e + k + s)%Z by lia. split; [apply Hq; lia|]. split; [apply part_aux22; lia|apply Hd; lia].
Qed.
Lemma part_cqxx3 m e : order <> 1%Z -> (0 <= m < Z.of_nat neq)%Z -> (1 <= e <= mx + 1)%Z ->
  cqxx3 neq nw naux mx fwave order mthlim undef rp stale q d A m e = cqxx3 neq nw naux mx' fwave order mthlim undef rp stale' q' d' A' m (e + s).
Proof.
  intros Ho Hm He. unfold cqxx3. destruct (Z.eqb_spec order 1) as [E|_]; [contradiction|]. f_equal.
  pose proof (part_near (reach nw order mthlim) e (reach_2 nw order mthlim) He) as H.
  exact (window_cqxx neq nw naux mx mx' fwave order mthlim undef rp q q' (aux22 A) (aux22 A') d d' m e (e + s) Hm Ho H He ltac:(lia)).
Qed.
Lemma part_split3 icoor imp dq dq' i : (1 <= i <= mx + 1)%Z -> (forall m, (0 <= m < Z.of_nat neq)%Z -> dq m i = dq' m (i + s)%Z) ->
  split3 neq naux rpt q A icoor imp dq i = split3 neq naux rpt q' A' icoor imp dq' (i + s).
Proof.
  intros Hi H. unfold split3. replace (i + s - 1)%Z with (i - 1 + s)%Z by lia.
  rewrite (Hq i), (Hq (i - 1)%Z), (HA i), (HA (i - 1)%Z) by lia. f_equal. apply vec_ext. exact H.
Qed.
Lemma part_incr icoor imp up m i : (1 <= i <= mx + 1)%Z ->
  incr neq naux rp rpt q A icoor imp up m i = incr neq naux rp rpt q' A' icoor imp up m (i + s).
Proof.
  intros Hi. unfold incr. destruct (near_R neq naux rp q q' (aux22 A) (aux22 A') d d' i (i + s) (part_near 1 i ltac:(lia) Hi)) as (_ & _ & M & P).
  rewrite (part_split3 icoor imp _ (if Z.eqb imp 1 then amdq (R q' A') else apdq (R q' A'))); [reflexivity|exact Hi|].
  intros c _. destruct (Z.eqb imp 1); [apply M|apply P].
Qed.
Lemma part_corr icoor imp up m i : digit3 trans = 2%Z -> (1 <= i <= mx + 1)%Z ->
  corr neq nw naux mx fwave order trans mthlim undef rp rpt stale q d A icoor imp up m i =
  corr neq nw naux mx' fwave order trans mthlim undef rp rpt stale' q' d' A' icoor imp up m (i + s).
Proof.
  intros D3 Hi. unfold corr. rewrite D3. change (2 =? 2)%Z with true. cbv iota. destruct (described_digits order trans HD) as (Ho & _). specialize (Ho D3).
  rewrite (part_split3 icoor _ _ (cqxx3 neq nw naux mx' fwave order mthlim undef rp stale' q' d' A')); [reflexivity|exact Hi|].
  intros c Hc. apply part_cqxx3; assumption.
Qed.
Lemma part_both icoor imp top m i : (0 < digit4 trans)%Z -> (1 <= i <= mx + 1)%Z ->
  both neq nw naux mx fwave order trans mthlim undef rp rpt stale q d A icoor imp top m i =
  both neq nw naux mx' fwave order trans mthlim undef rp rpt stale' q' d' A' icoor imp top m (i + s).
Proof.
  intros D4 Hi. unfold both. cbv zeta. rewrite part_incr by exact Hi. destruct (described_digits order trans HD) as (_ & _ & T & U).
  destruct (U D4) as [E|E]; rewrite E; [reflexivity|]. change (2 =? 2)%Z with true. cbv iota. rewrite part_corr by auto. reflexivity.
Qed.
Lemma part_double icoor imp top up m i : (0 < digit4 trans)%Z -> (1 <= i <= mx + 1)%Z ->
  double neq nw naux mx fwave order trans mthlim undef rp rpt rptt stale q d A icoor imp top up m i =
  double neq nw naux mx' fwave order trans mthlim undef rp rpt rptt stale' q' d' A' icoor imp top up m (i + s).
Proof.
  intros D4 Hi. unfold double. replace (i + s - 1)%Z with (i - 1 + s)%Z by lia. rewrite (Hq i), (Hq (i - 1)%Z), (HA i), (HA (i - 1)%Z) by lia.
  rewrite (vec_ext neq (both neq nw naux mx fwave order trans mthlim undef rp rpt stale q d A icoor imp top)
    (both neq nw naux mx' fwave order trans mthlim undef rp rpt stale' q' d' A' icoor imp top) i (i + s)); [reflexivity|].
  intros c _. apply part_both; assumption.
Qed.
Lemma part_part3 icoor imp dtc up sl m i : (1 <= i <= mx + 1)%Z ->
  part3 neq nw naux mx fwave order trans mthlim undef rp rpt rptt stale q d A icoor imp dtc up sl m i =
  part3 neq nw naux mx' fwave order trans mthlim undef rp rpt rptt stale' q' d' A' icoor imp dtc up sl m (i + s).
Proof.
  intros Hi. unfold part3. cbv zeta. rewrite part_incr by exact Hi. destruct (described_digits order trans HD) as (_ & W & _).
  assert (EC : (if Z.leb 2 (digit3 trans) then (if Z.eqb imp 1 then - corr neq nw naux mx fwave order trans mthlim undef rp rpt stale q d A icoor imp up m i else corr neq nw naux mx fwave order trans mthlim undef rp rpt stale q d A icoor imp up m i) else 0) =
    (if Z.leb 2 (digit3 trans) then (if Z.eqb imp 1 then - corr neq nw naux mx' fwave order trans mthlim undef rp rpt stale' q' d' A' icoor imp up m (i + s) else corr neq nw naux mx' fwave order trans mthlim undef rp rpt stale' q' d' A' icoor imp up m (i + s)) else 0)).
  { destruct (Z.leb_spec 2 (digit3 trans)) as [D|_]; [|reflexivity]. rewrite part_corr by auto. reflexivity. }
  rewrite EC. destruct (Z.ltb_spec 0 (digit4 trans)) as [D|_]; [|reflexivity]. rewrite !part_double by assumption. reflexivity.
Qed.
Notation F n st q d A := (flux3 neq nw naux ng n fwave order trans mthlim undef rp rpt rptt st q d dy dz A).
Lemma part_gadd3 up sl m i : (1 <= i <= mx)%Z -> g3add (F mx stale q d A) up sl m i = g3add (F mx' stale' q' d' A') up sl m (i + s) /\
  h3add (F mx stale q d A) up sl m i = h3add (F mx' stale' q' d' A') up sl m (i + s).
Proof.
  intros Hi. unfold flux3. destruct (Z.leb (digit3 trans) 0); [auto|]. cbn [g3add h3add]. unfold add3. rewrite !in_slice_true by lia.
  rewrite !(Hd i) by lia. replace (i + s + 1)%Z with (i + 1 + s)%Z by lia. rewrite !part_part3 by lia. auto.
Qed.
Lemma part_normal m : (0 <= m < Z.of_nat neq)%Z ->
  (forall e, (1 <= e <= mx + 1)%Z -> fadd (normal (F mx stale q d A)) m e = fadd (normal (F mx' stale' q' d' A')) m (e + s)) /\
  (forall i, (1 <= i <= mx)%Z -> qadd (normal (F mx stale q d A)) m i = qadd (normal (F mx' stale' q' d' A')) m (i + s)).
Proof.
  intro Hm. assert (N : forall e, (1 <= e <= mx + 1)%Z -> near neq naux (reach nw order mthlim) q d (aux22 A) e q' d' (aux22 A') (e + s)).
  { intros e He. apply part_near; [apply reach_2|exact He]. }
  split.
  - intros e He. pose proof (window_fadd neq nw naux ng mx mx' fwave order (-1) mthlim undef rp no_rpt q q' (aux22 A) (aux22 A') d d' Hg
      (aux22 A) (aux22 A) (aux22 A') (aux22 A') m e (e + s) Hm (N e He) He ltac:(lia)) as W.
    unfold flux3. cbv zeta. destruct (Z.leb (digit3 trans) 0); exact W.
  - intros i Hi. assert (N1 := N (i + 1)%Z ltac:(lia)). replace (i + 1 + s)%Z with (i + s + 1)%Z in N1 by lia.
    pose proof (window_qadd neq nw naux ng mx mx' fwave order (-1) mthlim undef rp no_rpt q q' (aux22 A) (aux22 A') d d'
      (aux22 A) (aux22 A) (aux22 A') (aux22 A') i (i + s) Hi ltac:(lia) (N i ltac:(lia)) N1 m) as W.
    unfold flux3. cbv zeta. destruct (Z.leb (digit3 trans) 0); exact W.
Qed.
End G.

(** ** The slices next to a cell *)
Lemma fold_filter {A B} (f : A -> B -> A) (p : B -> bool) : (forall w x, p x = false -> f w x = w) -> forall l v, fold_left f l v = fold_left f (filter p l) v.
Proof.
  intros H l. induction l as [|x l IH]; intro v; cbn [filter fold_left]; [reflexivity|].
  destruct (p x) eqn:E; [cbn [fold_left]; apply IH|]. rewrite H by exact E. apply IH.
Qed.
Lemma filter_flat_map {A B} (p : B -> bool) (f : A -> list B) : forall l, filter p (flat_map f l) = flat_map (fun x => filter p (f x)) l.
Proof. induction l as [|x l IH]; cbn [flat_map]; [reflexivity|]. rewrite filter_app, IH. reflexivity. Qed.
Lemma filter_map {A B} (p : B -> bool) (f : A -> B) : forall l, filter p (map f l) = map f (filter (fun x => p (f x)) l).
Proof. induction l as [|x l IH]; cbn [map filter]; [reflexivity|]. destruct (p (f x)); cbn [map]; rewrite IH; reflexivity. Qed.
Fixpoint all3 (ps : list (Z -> bool)) (b : list Z) : bool :=
  match ps, b with p :: ps, x :: b => (p x && all3 ps b)%bool | _, _ => true end.
Lemma flat_map_filter {A B} (p : A -> bool) (f : A -> list B) : forall l, (forall x, p x = false -> f x = []) -> flat_map f l = flat_map f (filter p l).
Proof.
  intros l H. induction l as [|x l IH]; cbn [filter flat_map]; [reflexivity|]. destruct (p x) eqn:E; cbn [flat_map]; rewrite IH; [reflexivity|]. rewrite H by exact E. reflexivity.
Qed.
Lemma filter_none {A} (l : list A) : filter (fun _ => false) l = [].
Proof. induction l as [|x l IH]; [reflexivity|exact IH]. Qed.
Lemma filter_cart : forall rs ps, length ps = length rs ->
  filter (all3 ps) (cart rs) = cart (map (fun pr => filter (fst pr) (snd pr)) (combine ps rs)).
Proof.
  induction rs as [|r rs IH]; intros [|p ps] H; cbn [length] in H; try lia; [reflexivity|]. cbn [cart combine map fst snd].
  rewrite filter_flat_map. rewrite <- (IH ps) by lia.
  rewrite (flat_map_filter (all3 ps) (fun l => filter (all3 (p :: ps)) (map (fun x => x :: l) r))).
  - induction (filter (all3 ps) (cart rs)) as [|l L IHL] eqn:EL; [reflexivity|].
    assert (G : forall L0, (forall x, In x L0 -> all3 ps x = true) -> flat_map (fun l0 => filter (all3 (p :: ps)) (map (fun x => x :: l0) r)) L0 = flat_map (fun l0 => map (fun x => x :: l0) (filter p r)) L0).
    { induction L0 as [|y L0 IH0]; intro HL0; cbn [flat_map]; [reflexivity|]. rewrite IH0 by (intros; apply HL0; right; assumption). f_equal.
      rewrite filter_map. f_equal. apply filter_ext. intro x. cbn [all3]. rewrite (HL0 y (or_introl eq_refl)). apply andb_true_r. }
    apply G. intros x Hx. rewrite <- EL in Hx. apply filter_In in Hx. apply Hx.
  - intros l Hl. rewrite filter_map. cbn [all3]. rewrite Hl. rewrite (filter_ext _ (fun _ => false)) by (intro; apply andb_false_r). rewrite filter_none. reflexivity.
Qed.
Definition by1 (r x : Z) : bool := Z.leb (Z.abs (x - r)) 1.
Lemma filter_range r lo n : (lo <= r - 1)%Z -> (r + 1 < lo + Z.of_nat n)%Z -> filter (by1 r) (zrange lo n) = [(r - 1)%Z; r; (r + 1)%Z].
Proof.
  intros H1 H2. replace n with (Z.to_nat (r - 1 - lo) + (3 + (n - Z.to_nat (r - 1 - lo) - 3)))%nat by lia.
  assert (Z0 : forall lo' n', (forall x, (lo' <= x < lo' + Z.of_nat n')%Z -> by1 r x = false) -> filter (by1 r) (zrange lo' n') = []).
  { intros lo' n' H. rewrite (filter_ext_in _ (fun _ => false)) by (intros x Hx; apply H; apply zrange_in; exact Hx). apply filter_none. }
  rewrite !zrange_app, !filter_app. rewrite (Z0 lo) by (intros x Hx; unfold by1; lia). rewrite (Z0 _ (n - _ - 3)%nat) by (intros x Hx; unfold by1; lia).
  replace (lo + Z.of_nat (Z.to_nat (r - 1 - lo)))%Z with (r - 1)%Z by lia.
  replace (zrange (r - 1) 3) with [(r - 1)%Z; r; (r + 1)%Z] by (unfold zrange; cbn [seq map]; repeat (apply f_equal2; [lia|]); reflexivity).
  cbn [app filter]. replace (by1 r (r - 1)) with true by (unfold by1; lia). replace (by1 r r) with true by (unfold by1; lia). replace (by1 r (r + 1)) with true by (unfold by1; lia). reflexivity.
Qed.
(** The nine slices along d around the cell ix *)
Definition around (d : nat) (ix : list Z) : list (list Z) :=
  cart (map (fun e => if Nat.eqb e d then [0%Z] else [(get e ix - 1)%Z; get e ix; (get e ix + 1)%Z]) [0; 1; 2]%nat).
Lemma filter_lines d ng ns ix : (d < 3)%nat -> length ns = 3%nat ->
  (forall e, (e < 3)%nat -> (Z.of_nat ng <= get e ix < Z.of_nat ng + nth e ns 0)%Z) ->
  filter (all3 (map (fun e => if Nat.eqb e d then fun _ => true else by1 (get e ix)) [0; 1; 2]%nat)) (lines d ng 1 ns) = around d ix.
Proof.
  intros Hd Hns B. destruct ns as [|n0 [|n1 [|n2 [|]]]]; cbn [length] in Hns; try lia.
  pose proof (B 0%nat ltac:(lia)) as B0. pose proof (B 1%nat ltac:(lia)) as B1. pose proof (B 2%nat ltac:(lia)) as B2. cbn [nth] in B0, B1, B2.
  unfold lines. rewrite filter_cart by reflexivity. unfold around. f_equal. cbn [lines_from map combine fst snd].
  destruct d as [|[|[|d]]]; [| | |lia]; cbn [Nat.eqb]; rewrite !filter_range by lia; reflexivity.
Qed.
Lemma around_moves d ix b : (d < 3)%nat -> length ix = 3%nat -> In b (around d ix) -> exists a c, (-1 <= a <= 1)%Z /\ (-1 <= c <= 1)%Z /\ b = move3 d a c (put d 0 ix).
Proof.
  intros Hd HL H. unfold around in H. rewrite cart_in in H. destruct ix as [|i0 [|i1 [|i2 [|]]]]; cbn [length] in HL; try lia.
  destruct d as [|[|[|d]]]; [| | |lia]; cbn [map Nat.eqb get] in H.
  - inversion H as [|b0 ? ? ? I0 H1]; subst. inversion H1 as [|b1 ? ? ? I1 H2]; subst. inversion H2 as [|b2 ? ? ? I2 H3]; subst. inversion H3; subst.
    cbn [In] in I0, I1, I2. exists (b1 - i1)%Z, (b2 - i2)%Z. split; [lia|]. split; [lia|]. unfold move3. cbn. repeat (apply f_equal2; [lia|]). reflexivity.
  - inversion H as [|b0 ? ? ? I0 H1]; subst. inversion H1 as [|b1 ? ? ? I1 H2]; subst. inversion H2 as [|b2 ? ? ? I2 H3]; subst. inversion H3; subst.
    cbn [In] in I0, I1, I2. exists (b2 - i2)%Z, (b0 - i0)%Z. split; [lia|]. split; [lia|]. unfold move3. cbn. repeat (apply f_equal2; [lia|]). reflexivity.
  - inversion H as [|b0 ? ? ? I0 H1]; subst. inversion H1 as [|b1 ? ? ? I1 H2]; subst. inversion H2 as [|b2 ? ? ? I2 H3]; subst. inversion H3; subst.
    cbn [In] in I0, I1, I2. exists (b0 - i0)%Z, (b1 - i1)%Z. split; [lia|]. split; [lia|]. unfold move3. cbn. repeat (apply f_equal2; [lia|]). reflexivity.
Qed.
