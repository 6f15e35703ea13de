(** Proofs about gauges and local grids in a decomposition. *)
From Verif Require Import Base GeometryModel GeometrySpec GeometryProofs.

(** The gauge index in the local grid, against the global one, in one dimension. *)
Lemma local_inside d lo hi l b1 b2 x : valid d -> (0 <= lo)%Z -> (lo < hi)%Z -> (hi <= x_n d)%Z ->
  local_dim d (lo, hi) = Some (l, b1, b2) ->
  (x_lower l <= x /\ x < x_upper l) <->
  (x_lower d <= x /\ x < x_upper d /\ (lo <= qfloor ((x - x_lower d) / delta d) < hi)%Z).
Proof.
  intros V H0 H H1 E. destruct (local_dim_some d lo hi V H) as (l' & E' & A & B & C & _ & _ & Vl & D).
  rewrite E' in E. inversion E; subst l'. clear E E'.
  pose proof (edge_form d lo) as F1. pose proof (edge_form d hi) as F2. rewrite A, B. rewrite <- F1, <- F2.
  pose proof (edge_le d 0 lo V H0) as G1. rewrite edge_lower in G1.
  pose proof (edge_le d hi (x_n d) V H1) as G2. rewrite edge_upper in G2 by auto.
  split.
  - intros [X1 X2]. repeat split; try lra.
    + destruct (div_floor d x V ltac:(lra)) as (I1 & I2 & I3).
      apply Z.nlt_ge. intros L. pose proof (edge_le d _ lo V ltac:(apply Zlt_le_succ, L)). unfold Z.succ in *. lra.
    + destruct (div_floor d x V ltac:(lra)) as (I1 & I2 & I3).
      apply Z.nle_gt. intros L. pose proof (edge_le d _ _ V L). lra.
  - intros (X1 & X2 & X3). destruct (div_floor d x V ltac:(lra)) as (I1 & I2 & I3).
    pose proof (edge_le d _ _ V (proj1 X3)). pose proof (edge_le d (qfloor ((x - x_lower d) / delta d) + 1) hi V ltac:(lia)). lra.
Qed.
Lemma local_index d lo hi l b1 b2 x : valid d -> (0 <= lo)%Z -> (lo < hi)%Z -> (hi <= x_n d)%Z ->
  local_dim d (lo, hi) = Some (l, b1, b2) -> x_lower l <= x -> x < x_upper l ->
  (lo + qfloor ((x - x_lower l) / delta l))%Z = qfloor ((x - x_lower d) / delta d).
Proof.
  intros V H0 H H1 E X1 X2.
  destruct (proj1 (local_inside d lo hi l b1 b2 x V H0 H H1 E) (conj X1 X2)) as (Y1 & Y2 & Y3).
  destruct (div_floor d x V Y1) as (I1 & I2 & I3).
  destruct (local_dim_some d lo hi V H) as (l' & E' & A & B & C & _ & _ & Vl & D).
  assert (l' = l) by congruence. subst l'.
  destruct (div_floor l x Vl X1) as (J1 & J2 & J3).
  rewrite (local_edge d lo hi l b1 b2 _ V H E) in J1. rewrite (local_edge d lo hi l b1 b2 _ V H E) in J2.
  apply (index_unique d x); auto. replace (lo + qfloor ((x - x_lower l) / delta l) + 1)%Z with
    (lo + (qfloor ((x - x_lower l) / delta l) + 1))%Z by lia. auto.
Qed.

Fixpoint shift_by (rs : list (Z * Z)) (ix : list Z) : list Z :=
  match rs, ix with
  | r :: rs, i :: ix => (fst r + i)%Z :: shift_by rs ix
  | _, _ => []
  end.

Lemma one_owner ds cs p : Forall valid ds -> Forall2 (fun d c => cuts 0 (x_n d) c) ds cs -> in_domain ds p ->
  exists rs ls, process cs rs /\ local_dims ds rs = Some ls /\ gauge_inside ls p = true
    /\ shift_by rs (gauge_index ls p) = gauge_index ds p
    /\ forall rs' ls', process cs rs' -> local_dims ds rs' = Some ls' -> gauge_inside ls' p = true -> rs' = rs.
Proof.
  intros V F. revert p V. induction F as [|d c ds cs Hc F IH]; intros p V Hp.
  - exists [], []. simpl. repeat split; auto. intros [|r rs']; simpl; tauto.
  - inversion V as [|? ? Vd V']; subst. destruct p as [|x p]; simpl in Hp; [tauto|].
    destruct Hp as (X1 & X2 & Hp). destruct (IH p V' Hp) as (rs & ls & R1 & R2 & R3 & R4 & R5).
    destruct (div_floor d x Vd X1) as (I1 & I2 & I3).
    set (i := qfloor ((x - x_lower d) / delta d)) in *.
    assert (Hi : (0 <= i < x_n d)%Z).
    { split; auto. apply Z.nle_gt. intros L. pose proof (edge_le d _ _ Vd L). rewrite edge_upper in H by auto. lra. }
    destruct (cuts_owner c 0 (x_n d) i Hc Hi) as ([lo hi] & C1 & C2 & C3). simpl in C2.
    pose proof (proj2 (cuts_bounds _ _ _ Hc) _ _ C1) as [B1 B2].
    destruct (local_dim_some d lo hi Vd ltac:(lia)) as (l & E & A & B & C & _ & _ & Vl & D).
    assert (IN : x_lower l <= x /\ x < x_upper l).
    { apply (local_inside d lo hi l _ _ x Vd ltac:(lia) ltac:(lia) ltac:(lia) E). auto. }
    exists ((lo, hi) :: rs), (l :: ls). split; [simpl; auto|]. split; [cbn [local_dims]; rewrite E, R2; auto|].
    split; [|split].
    + simpl. rewrite R3, (proj2 (qleb_le _ _) (proj1 IN)), (proj2 (qltb_lt _ _) (proj2 IN)). auto.
    + simpl. f_equal; auto.
      apply (local_index d lo hi l _ _ x Vd ltac:(lia) ltac:(lia) ltac:(lia) E (proj1 IN) (proj2 IN)).
    + intros [|[lo' hi'] rs'] ls'; simpl process; [tauto|]. intros (P1 & P2) Q1 Q2.
      pose proof (proj2 (cuts_bounds _ _ _ Hc) _ _ P1) as [B1' B2'].
      cbn [local_dims] in Q1. destruct (local_dim d (lo', hi')) as [[[l' f1] f2]|] eqn:E'; [|discriminate].
      destruct (local_dims ds rs') as [ls''|] eqn:E''; [|discriminate]. inversion Q1; subst ls'. clear Q1.
      simpl in Q2. rewrite !andb_true_iff, qleb_le, qltb_lt in Q2. destruct Q2 as [IN' Q2].
      apply (local_inside d lo' hi' l' _ _ x Vd ltac:(lia) ltac:(lia) ltac:(lia) E') in IN'.
      f_equal.
      * apply C3; auto. simpl. apply IN'.
      * eapply R5; eauto.
Qed.

Lemma owner_in_domain ds cs p rs ls : Forall valid ds -> Forall2 (fun d c => cuts 0 (x_n d) c) ds cs ->
  process cs rs -> local_dims ds rs = Some ls -> gauge_inside ls p = true -> in_domain ds p.
Proof.
  intros V F. revert p rs ls V. induction F as [|d c ds cs Hc F IH]; intros p rs ls V; [simpl; auto|].
  inversion V as [|? ? Vd V']; subst. destruct rs as [|[lo hi] rs]; simpl process; [tauto|].
  intros (P1 & P2) Q1 Q2. pose proof (proj2 (cuts_bounds _ _ _ Hc) _ _ P1) as [B1 B2].
  cbn [local_dims] in Q1. destruct (local_dim d (lo, hi)) as [[[l f1] f2]|] eqn:E; [|discriminate].
  destruct (local_dims ds rs) as [ls'|] eqn:E'; [|discriminate]. inversion Q1; subst ls. clear Q1.
  destruct p as [|x p]; simpl in Q2; [discriminate|].
  rewrite !andb_true_iff, qleb_le, qltb_lt in Q2. destruct Q2 as [IN Q2].
  apply (local_inside d lo hi l _ _ x Vd ltac:(lia) ltac:(lia) ltac:(lia) E) in IN.
  simpl. repeat split; try apply IN. eauto.
Qed.

(** ** Tiling *)
Lemma local_centers d lo hi l b1 b2 : valid d -> (lo < hi)%Z -> local_dim d (lo, hi) = Some (l, b1, b2) ->
  lists (center_array l) lo (hi - lo) (middle d) /\ lists (node_array l) lo (hi - lo + 1) (edge d).
Proof.
  intros V H E. destruct (local_dim_some d lo hi V H) as (l' & E' & A & B & C & _ & _ & Vl & D).
  assert (l' = l) by congruence. subst l'.
  destruct (center_array_lists l Vl) as [L1 L2]. destruct (node_array_lists l Vl) as [N1 N2].
  rewrite C in *. split; split; auto.
  - intros i Hi. destruct (L2 i Hi) as (x & X1 & X2). exists x. split; auto. rewrite X2. simpl.
    unfold middle. rewrite !(local_edge d lo hi l b1 b2 _ V H E).
    replace (lo + (i + 1))%Z with (lo + i + 1)%Z by lia. reflexivity.
  - intros i Hi. destruct (N2 i Hi) as (x & X1 & X2). exists x. split; auto. rewrite X2.
    rewrite (local_edge d lo hi l b1 b2 _ V H E). reflexivity.
Qed.

(** The centres of the processes in order. *)
Fixpoint gathered (d : dim) (rs : list (Z * Z)) : list Q :=
  match rs with
  | [] => []
  | r :: rs => match local_dim d r with Some (l, _, _) => center_array l | None => [] end ++ gathered d rs
  end.
Lemma gathered_lists d rs lo hi : valid d -> cuts lo hi rs -> lists (gathered d rs) lo (hi - lo) (middle d).
Proof.
  intros V. revert lo. induction rs as [|[a b] rs IH]; cbn [cuts gathered].
  - intros lo ->. split; simpl; [lia | intros; lia].
  - intros lo (-> & Hab & H). destruct (local_dim_some d lo b V Hab) as (l & E & _). rewrite E.
    replace (hi - lo)%Z with ((b - lo) + (hi - b))%Z by lia. apply lists_app.
    + eapply local_centers; eauto.
    + replace (lo + (b - lo))%Z with b by lia. auto.
Qed.
