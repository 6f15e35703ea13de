(** Properties of grid geometry: C36 (coordinates), C37 (gauges), C38 (cached coordinate arrays), C39
    (validity of a Dimension), C46 (local grids of a parallel run). *)
From Verif Require Import Base GeometryModel GeometrySpec GeometryProofs GeometryProofs2.

(** ** C36 *)
(** Reading the coordinates of a valid dimension, with or without ghost cells, lists the edges and the
    midpoints of its cells; ghost cells continue the same grid. *)
Theorem C36_coordinates : forall d ng, valid d -> coherent d -> (0 <= ng)%Z ->
  lists (fst (read_nodes d)) 0 (x_n d + 1) (edge d)
  /\ lists (fst (read_centers d)) 0 (x_n d) (middle d)
  /\ lists (fst (nodes_with_ghost ng d)) (- ng) (x_n d + 1 + 2 * ng) (edge d)
  /\ lists (fst (centers_with_ghost ng d)) (- ng) (x_n d + 2 * ng) (middle d).
Proof.
  intros d ng V C G.
  assert (N : lists (fst (read_nodes d)) 0 (x_n d + 1) (edge d))
    by (rewrite read_nodes_fst by auto; apply node_array_lists; auto).
  assert (M : lists (fst (read_centers d)) 0 (x_n d) (middle d))
    by (rewrite read_centers_fst by auto; apply center_array_lists; auto).
  split; auto. split; auto. split.
  - unfold nodes_with_ghost. destruct (read_nodes d) as [a d'] eqn:E. cbn [fst] in *.
    replace (x_n d + 1 + 2 * ng)%Z with (ng + ((x_n d + 1) + ng))%Z by lia.
    apply lists_app; [apply pre_nodes; auto|]. replace (- ng + ng)%Z with 0%Z by lia.
    apply lists_app; auto. rewrite Z.add_0_l. apply post_nodes; auto.
  - unfold centers_with_ghost. destruct (read_centers d) as [a d'] eqn:E. cbn [fst] in *.
    replace (x_n d + 2 * ng)%Z with (ng + (x_n d + ng))%Z by lia.
    apply lists_app; [apply pre_centers; auto|]. replace (- ng + ng)%Z with 0%Z by lia.
    apply lists_app; auto. rewrite Z.add_0_l. apply post_centers; auto.
Qed.

(** The edges run from lower to upper in equal positive steps of size delta and increase strictly; each
    centre lies strictly inside its cell, half a step from both edges. *)
Theorem C36_edges : forall d, valid d ->
  edge d 0 == x_lower d /\ edge d (x_n d) == x_upper d /\ 0 < delta d
  /\ (forall i, edge d (i + 1) - edge d i == delta d)
  /\ (forall i j, (i < j)%Z -> edge d i < edge d j /\ middle d i < middle d j)
  /\ (forall i, middle d i - edge d i == delta d / 2 /\ edge d (i + 1) - middle d i == delta d / 2).
Proof.
  intros d V. split; [apply edge_lower|]. split; [apply edge_upper; auto|]. split; [apply delta_pos; auto|].
  split; [|split].
  - intros i. rewrite !edge_form, inject_Z_plus. change (inject_Z 1) with 1. ring.
  - intros i j H. pose proof (edge_lt d i j V H). pose proof (edge_lt d (i + 1) (j + 1) V ltac:(lia)).
    split; auto. rewrite !middle_form. pose proof (delta_pos d V).
    assert (inject_Z i < inject_Z j) by (rewrite <- Zlt_Qlt; auto). nra.
  - intros i. rewrite middle_form, !edge_form, inject_Z_plus. change (inject_Z 1) with 1. split; field.
Qed.

Definition demo_dim : dim := mkDimension (1 # 2) 3 5 None None.
Example C36_example :
  new_dim (1 # 2) 3 5 = Some demo_dim /\ valid demo_dim /\ coherent demo_dim
  /\ map Qred (fst (centers_with_ghost 2 demo_dim)) =
     [- (1 # 4); 1 # 4; 3 # 4; 5 # 4; 7 # 4; 9 # 4; 11 # 4; 13 # 4; 15 # 4]
  /\ map Qred (fst (nodes_with_ghost 1 demo_dim)) = [0; 1 # 2; 1; 3 # 2; 2; 5 # 2; 3; 7 # 2].
Proof.
  split; [reflexivity|]. split; [split; reflexivity|].
  split; [split; simpl; discriminate|]. split; vm_compute; reflexivity.
Qed.
Print Assumptions C36_coordinates.
Print Assumptions C36_edges.

(** ** C37 *)
(** add_gauges appends exactly the gauges that lie in the (half-open) domain, in order, each with the
    indices of the cell that contains it; this cell is the only one. *)
Theorem C37_gauges : forall ds coords gauges files,
  Forall valid ds -> Forall (fun p => (length ds <= length p)%nat) coords ->
  exists inside ixs,
    add_gauges ds coords (gauges, files) = (gauges ++ ixs, files ++ inside)
    /\ (exists f, inside = filter f coords /\ forall p, f p = true <-> in_domain ds p)
    /\ Forall2 (in_cell ds) inside ixs
    /\ (forall p ix jx, in_cell ds p ix -> in_cell ds p jx -> ix = jx)
    /\ (forall p ix, in_cell ds p ix -> in_domain ds p).
Proof.
  intros ds coords gauges files V _.
  exists (filter (gauge_inside ds) coords), (map (gauge_index ds) (filter (gauge_inside ds) coords)).
  split; [apply add_gauges_filter|]. split; [|split; [|split]].
  - exists (gauge_inside ds). split; auto. intros p. apply gauge_inside_iff.
  - induction coords as [|p coords IH]; simpl; [constructor|].
    destruct (gauge_inside ds p) eqn:E; auto. simpl. constructor; auto.
    apply gauge_index_cell; auto. apply gauge_inside_iff; auto.
  - intros. eapply in_cell_unique; eauto.
  - intros. eapply in_cell_domain; eauto.
Qed.

(** In a domain cut among processes each gauge inside the domain is recorded by exactly one process, for
    the same cell as in a serial run; a gauge outside is recorded by none. *)
Theorem C37_one_owner : forall ds cs p,
  Forall valid ds -> Forall2 (fun d c => cuts 0 (x_n d) c) ds cs ->
  (in_domain ds p ->
     exists rs ls, process cs rs /\ local_dims ds rs = Some ls /\ gauge_inside ls p = true
       /\ shift_by rs (gauge_index ls p) = gauge_index ds p
       /\ forall rs' ls', process cs rs' -> local_dims ds rs' = Some ls' -> gauge_inside ls' p = true -> rs' = rs)
  /\ (~ in_domain ds p ->
     forall rs ls, process cs rs -> local_dims ds rs = Some ls -> gauge_inside ls p = false).
Proof.
  intros ds cs p V F. split.
  - intros. apply one_owner; auto.
  - intros N rs ls P1 P2. apply not_true_iff_false. intros G. apply N. eapply owner_in_domain; eauto.
Qed.

Definition demo_dim2 : dim := mkDimension (-(1)) 1 4 None None.
Example C37_example :
  Forall valid [demo_dim; demo_dim2]
  /\ Forall2 (fun d c => cuts 0 (x_n d) c) [demo_dim; demo_dim2] [[(0, 2); (2, 5)]; [(0, 1); (1, 2); (2, 4)]]%Z
  /\ in_domain [demo_dim; demo_dim2] [3 # 2; 0]
  /\ add_gauges [demo_dim; demo_dim2] [[3 # 2; 0]; [3; 0]; [1 # 2; 99 # 100]] ([], [])
     = ([[2; 2]; [0; 3]]%Z, [[3 # 2; 0]; [1 # 2; 99 # 100]]).
Proof.
  split; [repeat constructor|]. split; [repeat constructor|].
  split; [simpl; unfold Qle, Qlt; simpl; lia | vm_compute; reflexivity].
Qed.
Print Assumptions C37_gauges.
Print Assumptions C37_one_owner.

(** ** C38 *)
(** The coordinates of a single dimension are those of its current attributes after any program. *)
Theorem C38_dimension_coordinates : forall P (m : mapping P) ds os d,
  Forall coherent ds -> adds_coherent P os -> In d (g_dims (grun (new_grid ds m) os)) ->
  fst (read_centers d) = center_array d /\ fst (read_nodes d) = node_array d.
Proof.
  intros P m ds os d H A Hd.
  assert (C : all_coherent P (grun (new_grid ds m) os)) by (apply coherent_run; auto).
  unfold all_coherent in C. rewrite Forall_forall in C. specialize (C d Hd).
  split; [apply read_centers_fst | apply read_nodes_fst]; auto.
Qed.

(** The computational coordinate arrays are right after any program that reads no single dimension, and
    the physical ones after any program that in addition does not read the computational ones. *)
Theorem C38_grid_coordinates_partial : forall P (m : mapping P) ds os,
  Forall coherent ds -> adds_coherent P os -> forallb (fun o => negb (dim_read o)) os = true ->
  let g := grun (new_grid ds m) os in
  read_cc g = Some (centers_now g) /\ read_cn g = Some (nodes_now g)
  /\ (forallb (fun o => negb (c_read o)) os = true ->
      read_pc g = Some (g_map g (centers_now g)) /\ read_pn g = Some (g_map g (nodes_now g))).
Proof.
  intros P m ds os H A N g.
  assert (I : inv_c P g) by (apply inv_c_run; auto; apply inv_new; auto).
  destruct I as (I1 & I2 & I3).
  split; [apply compute_cc_facts; auto|]. split; [apply compute_cn_facts; auto|].
  intros N2. assert (J : inv_p P g).
  { apply inv_p_run; auto; [apply inv_new; auto|]. rewrite forallb_forall in *. intros o Ho.
    rewrite N, N2; auto. }
  destruct J as (_ & J1 & J2). split.
  - destruct (compute_pc_facts P g I1 I2) as (_ & _ & _ & _ & _ & _ & _ & _ & F & _). exact (F J1).
  - destruct (compute_pn_facts P g I1 I3) as (_ & _ & _ & _ & _ & _ & _ & _ & F & _). exact (F J2).
Qed.

(** The full property fails.  Reading c_centers between the change and the read of p_centers leaves the
    physical coordinates of the old grid; reading the centres of the dimension does the same to
    c_centers. *)
Theorem C38_refuted :
  (exists (ds : list dim) (os : list (gop (list (list Q)))),
     Forall coherent ds /\ Forall valid ds /\ adds_coherent _ os /\ forallb (fun o => negb (dim_read o)) os = true
     /\ let g := grun (new_grid ds (fun a => a)) os in
        Forall valid (g_dims g) /\ read_pc g <> Some (g_map g (centers_now g)))
  /\ (exists (ds : list dim) (os : list (gop (list (list Q)))),
     Forall coherent ds /\ Forall valid ds /\ adds_coherent _ os
     /\ let g := grun (new_grid ds (fun a => a)) os in
        Forall valid (g_dims g) /\ read_cc g <> Some (centers_now g)).
Proof.
  split.
  - exists [demo_dim], [GPCenters; GAssign 0 (SetLower 0); GCenters]. repeat split; try (repeat constructor; simpl; discriminate).
  - exists [demo_dim], [GCenters; GAssign 0 (SetLower 0); GReadDimCenters 0]. repeat split; try (repeat constructor; simpl; discriminate).
Qed.

Example C38_example :
  let os := [GCenters; GPCenters; GAssign 1 (SetNumCells (5 # 2)); GSetMap (@hd (list Q) [])] in
  forallb (fun o => negb (dim_read o)) os = true /\ adds_coherent _ os
  /\ option_map (map (map Qred)) (read_cc (grun (new_grid [demo_dim; demo_dim2] (fun _ => [])) os))
     = Some [[3 # 4; 5 # 4; 7 # 4; 9 # 4; 11 # 4]; [-(1) # 2; 1 # 2]].
Proof. split; [reflexivity|]. split; [repeat constructor | vm_compute; reflexivity]. Qed.
Print Assumptions C38_dimension_coordinates.
Print Assumptions C38_grid_coordinates_partial.
Print Assumptions C38_refuted.

(** ** C39 *)
(** The constructor and every assignment raise exactly when the resulting dimension is invalid, so a
    dimension is valid after any sequence of assignments whose last one did not raise. *)
Theorem C39_no_error_no_damage_partial :
  (forall l u n d, new_dim l u n = Some d -> valid d)
  /\ (forall l u n, (0 < n)%Z -> l < u -> new_dim l u n <> None)
  /\ (forall a d, snd (assign a d) = false <-> valid (fst (assign a d)))
  /\ (forall os a d, let d' := fold_left (fun d a => fst (assign a d)) os d in
        snd (assign a d') = false -> valid (fst (assign a d'))).
Proof.
  assert (A : forall a d, snd (assign a d) = false <-> valid (fst (assign a d))).
  { intros a d. unfold assign. cbn [fst snd]. rewrite negb_false_iff. apply check_valid. }
  split; [|split; [|split; [exact A|]]].
  - intros l u n d. unfold new_dim. destruct (check_validity _) eqn:E; [|discriminate].
    intros H. inversion H; subst. apply check_valid; auto.
  - intros l u n Hn Hl. unfold new_dim.
    rewrite (proj2 (check_valid (mkDimension l u n None None))); [discriminate | split; auto].
  - intros os a d. cbv zeta. apply A.
Qed.
(** The value is stored before the check, so an assignment that raises leaves an invalid dimension; the
    new interval [2,3] cannot be reached from [0,1] through lower without an exception. *)
Theorem C39_refuted : exists d a, valid d /\ coherent d /\ snd (assign a d) = true /\ ~ valid (fst (assign a d)).
Proof.
  exists (mkDimension 0 1 10 None None), (SetLower 2). repeat split; simpl; try discriminate.
  intros [_ H]. vm_compute in H. discriminate.
Qed.
Example C39_example : exists d, new_dim 0 1 10 = Some d /\ snd (assign (SetUpper 3) d) = false
  /\ snd (assign (SetNumCells (1 # 2)) d) = true.
Proof. eexists. split; [reflexivity|]. split; vm_compute; reflexivity. Qed.
Print Assumptions C39_no_error_no_damage_partial.
Print Assumptions C39_refuted.

(** ** C46 *)
(** The local grids of a dimension cut among processes: every process gets a valid dimension with the
    global cell size, whose edges and centres are those of the global cells it owns; the outermost
    processes, and only they, are flagged as touching the boundary; consecutive processes share a bound;
    and the centres of all processes in order are the centres of the global grid. *)
Theorem C46_local_grids_tile : forall d c, valid d -> cuts 0 (x_n d) c ->
  (forall lo hi, In (lo, hi) c -> exists l on_lower on_upper,
     local_dim d (lo, hi) = Some (l, on_lower, on_upper) /\ valid l /\ coherent l /\ delta l == delta d
     /\ lists (node_array l) lo (hi - lo + 1) (edge d) /\ lists (center_array l) lo (hi - lo) (middle d)
     /\ (on_lower = true <-> x_lower l == x_lower d) /\ (on_upper = true <-> x_upper l == x_upper d))
  /\ (forall lo mid hi l1 l2 a b a' b', In (lo, mid) c -> In (mid, hi) c ->
       local_dim d (lo, mid) = Some (l1, a, b) -> local_dim d (mid, hi) = Some (l2, a', b') ->
       x_upper l1 = x_lower l2)
  /\ lists (gathered d c) 0 (x_n d) (middle d).
Proof.
  intros d c V H. pose proof (delta_pos d V) as D. split; [|split].
  - intros lo hi Hin. pose proof (proj2 (cuts_bounds _ _ _ H) _ _ Hin) as [B1 B2].
    destruct (local_dim_some d lo hi V ltac:(lia)) as (l & E & A & B & C & X1 & X2 & Vl & Dl).
    exists l, (Z.eqb lo 0), (Z.eqb hi (x_n d)). split; auto. split; auto.
    split; [split; intros a Ha; congruence|]. split; auto.
    destruct (local_centers d lo hi l _ _ V ltac:(lia) E) as [L1 L2]. split; auto. split; auto.
    split.
    + rewrite Z.eqb_eq, A. split; [intros ->; change (inject_Z 0) with 0; ring|].
      intros K. destruct (Z.eq_dec lo 0); auto. exfalso.
      assert (inject_Z 0 < inject_Z lo) by (rewrite <- Zlt_Qlt; lia). change (inject_Z 0) with 0 in *. nra.
    + rewrite Z.eqb_eq, B. pose proof (delta_n d V). split; [intros ->; lra|].
      intros K. destruct (Z.eq_dec hi (x_n d)); auto. exfalso.
      assert (inject_Z hi < inject_Z (x_n d)) by (rewrite <- Zlt_Qlt; lia). nra.
  - intros lo mid hi l1 l2 a b a' b' H1 H2 E1 E2.
    pose proof (proj2 (cuts_bounds _ _ _ H) _ _ H1). pose proof (proj2 (cuts_bounds _ _ _ H) _ _ H2).
    destruct (local_dim_some d lo mid V ltac:(lia)) as (l & E & A & B & _).
    destruct (local_dim_some d mid hi V ltac:(lia)) as (l' & E' & A' & B' & _). congruence.
  - replace (x_n d) with (x_n d - 0)%Z by lia. apply gathered_lists; auto.
Qed.
Example C46_example : valid demo_dim /\ cuts 0 (x_n demo_dim) [(0, 2); (2, 3); (3, 5)]%Z
  /\ option_map (fun r => (Qred (x_lower (fst (fst r))), Qred (x_upper (fst (fst r))), snd (fst r), snd r))
       (local_dim demo_dim (2, 3)%Z) = Some (3 # 2, 2, false, false).
Proof. split; [split; reflexivity|]. split; [repeat split | vm_compute; reflexivity]. Qed.
Print Assumptions C46_local_grids_tile.
