(** Proofs about grid geometry. *)
From Verif Require Import Base GeometryModel GeometrySpec.

Lemma table_length n f : (0 <= n)%Z -> Z.of_nat (length (table n f)) = n.
Proof. intros. unfold table. rewrite map_length, seq_length. lia. Qed.
Lemma table_nth n f i : (0 <= i < n)%Z -> nth_error (table n f) (Z.to_nat i) = Some (f i).
Proof.
  intros. unfold table. rewrite nth_error_map.
  rewrite (nth_error_nth' _ 0%nat) by (rewrite seq_length; lia).
  simpl. rewrite seq_nth by lia. simpl. do 2 f_equal. lia.
Qed.
Lemma table_lists n lo f h : (0 <= n)%Z -> (forall i, (0 <= i < n)%Z -> f i == h (lo + i)%Z) ->
  lists (table n f) lo n h.
Proof.
  intros Hn H. split.
  - apply table_length; auto.
  - intros i Hi. exists (f i). split; [apply table_nth; auto | auto].
Qed.
Lemma lists_app l1 l2 lo n1 n2 h :
  lists l1 lo n1 h -> lists l2 (lo + n1) n2 h -> lists (l1 ++ l2) lo (n1 + n2) h.
Proof.
  intros [L1 H1] [L2 H2]. split.
  - rewrite app_length. lia.
  - intros i Hi. destruct (Z.ltb i n1) eqn:E.
    + apply Z.ltb_lt in E. destruct (H1 i ltac:(lia)) as (x & Hx & Ex). exists x. split; auto.
      rewrite nth_error_app1; auto. lia.
    + apply Z.ltb_ge in E. destruct (H2 (i - n1)%Z ltac:(lia)) as (x & Hx & Ex). exists x. split.
      * rewrite nth_error_app2 by lia. rewrite <- Hx. f_equal. lia.
      * rewrite Ex. replace (lo + n1 + (i - n1))%Z with (lo + i)%Z by lia. reflexivity.
Qed.

Lemma inj_pos n : (0 < n)%Z -> 0 < inject_Z n.
Proof. intros. change 0 with (inject_Z 0). rewrite <- Zlt_Qlt. auto. Qed.
Lemma delta_pos d : valid d -> 0 < delta d.
Proof. intros [Hn H]. unfold delta. apply Qdiv_pos; [lra | apply inj_pos; auto]. Qed.
Lemma delta_n d : valid d -> inject_Z (x_n d) * delta d == x_upper d - x_lower d.
Proof. intros [Hn H]. unfold delta. pose proof (inj_pos _ Hn). field. lra. Qed.

Lemma edge_form d i : edge d i == x_lower d + inject_Z i * delta d.
Proof. reflexivity. Qed.
Lemma edge_lower d : edge d 0 == x_lower d.
Proof. rewrite edge_form. change (inject_Z 0) with 0. ring. Qed.
Lemma edge_upper d : valid d -> edge d (x_n d) == x_upper d.
Proof. intros V. rewrite edge_form, delta_n by auto. ring. Qed.
Lemma edge_lt d i j : valid d -> (i < j)%Z -> edge d i < edge d j.
Proof.
  intros V Hij. rewrite !edge_form. pose proof (delta_pos d V).
  assert (inject_Z i < inject_Z j) by (rewrite <- Zlt_Qlt; auto). nra.
Qed.
Lemma edge_le d i j : valid d -> (i <= j)%Z -> edge d i <= edge d j.
Proof.
  intros V Hij. rewrite !edge_form. pose proof (delta_pos d V).
  assert (inject_Z i <= inject_Z j) by (rewrite <- Zle_Qle; auto). nra.
Qed.
Lemma middle_form d i : middle d i == x_lower d + (inject_Z i + (1 # 2)) * delta d.
Proof. unfold middle. rewrite !edge_form, inject_Z_plus. change (inject_Z 1) with 1. field. Qed.

Lemma node_array_lists d : valid d -> lists (node_array d) 0 (x_n d + 1) (edge d).
Proof.
  intros [Hn H]. apply table_lists; [lia|]. intros i Hi. rewrite Z.add_0_l, edge_form. reflexivity.
Qed.
Lemma center_array_lists d : valid d -> lists (center_array d) 0 (x_n d) (middle d).
Proof.
  intros [Hn H]. apply table_lists; [lia|]. intros i Hi. rewrite Z.add_0_l, middle_form. reflexivity.
Qed.

Lemma linspace_lists a b n lo h :
  (0 <= n)%Z -> (forall i, (0 <= i < n)%Z -> (1 < n)%Z ->
     a + inject_Z i * ((b - a) / inject_Z (n - 1)) == h (lo + i)%Z) ->
  ((0 < n)%Z -> a == h lo) -> lists (linspace a b n) lo n h.
Proof.
  intros Hn H H1. apply table_lists; auto. intros i Hi.
  destruct (Z.eq_dec n 1) as [E|E].
  - assert (i = 0)%Z by lia. subst i. rewrite Z.add_0_r. change (inject_Z 0) with 0. rewrite <- H1 by lia. ring.
  - apply H; lia.
Qed.

Lemma pre_nodes d ng : (0 <= ng)%Z ->
  lists (linspace (x_lower d - inject_Z ng * delta d) (x_lower d - delta d) ng) (- ng) ng (edge d).
Proof.
  intros Hg. apply linspace_lists; auto.
  - intros i Hi Hn. rewrite edge_form, inject_Z_plus, inject_Z_opp.
    assert (E : inject_Z (ng - 1) == inject_Z ng - 1)
      by (unfold Z.sub; rewrite inject_Z_plus; reflexivity).
    assert (1 < inject_Z ng) by (change 1 with (inject_Z 1); rewrite <- Zlt_Qlt; auto).
    rewrite E. field. lra.
  - intros _. rewrite edge_form, inject_Z_opp. ring.
Qed.
Lemma post_nodes d ng : valid d -> (0 <= ng)%Z ->
  lists (linspace (x_upper d + delta d) (x_upper d + inject_Z ng * delta d) ng) (x_n d + 1) ng (edge d).
Proof.
  intros V Hg. pose proof (delta_n d V) as D. apply linspace_lists; auto.
  - intros i Hi Hn. rewrite edge_form, !inject_Z_plus.
    assert (E : inject_Z (ng - 1) == inject_Z ng - 1)
      by (unfold Z.sub; rewrite inject_Z_plus; reflexivity).
    assert (1 < inject_Z ng) by (change 1 with (inject_Z 1); rewrite <- Zlt_Qlt; auto).
    rewrite E. transitivity (x_upper d + delta d + inject_Z i * delta d); [field; lra|].
    change (inject_Z 1) with 1. lra.
  - intros _. rewrite edge_form, inject_Z_plus. change (inject_Z 1) with 1. lra.
Qed.
Lemma pre_centers d ng : (0 <= ng)%Z ->
  lists (table ng (fun i => x_lower d + (inject_Z (i - ng) + (1 # 2)) * delta d)) (- ng) ng (middle d).
Proof.
  intros Hg. apply table_lists; auto. intros i Hi. rewrite middle_form.
  replace (- ng + i)%Z with (i - ng)%Z by lia. reflexivity.
Qed.
Lemma post_centers d ng : valid d -> (0 <= ng)%Z ->
  lists (table ng (fun i => x_upper d + delta d * (inject_Z i + (1 # 2)))) (x_n d) ng (middle d).
Proof.
  intros V Hg. pose proof (delta_n d V) as D. apply table_lists; auto. intros i Hi.
  rewrite middle_form, inject_Z_plus. lra.
Qed.

(** ** Caches of a dimension *)
Lemma read_centers_fst d : coherent d -> fst (read_centers d) = center_array d.
Proof. intros [H _]. unfold read_centers. destruct (x_centers d) eqn:E; simpl; auto. Qed.
Lemma read_nodes_fst d : coherent d -> fst (read_nodes d) = node_array d.
Proof. intros [_ H]. unfold read_nodes. destruct (x_nodes d) eqn:E; simpl; auto. Qed.

(** Reading changes no attribute. *)
Lemma read_centers_same d :
  let d' := snd (read_centers d) in
  x_lower d' = x_lower d /\ x_upper d' = x_upper d /\ x_n d' = x_n d /\ x_nodes d' = x_nodes d
  /\ (coherent d -> x_centers d' = Some (center_array d)).
Proof.
  unfold read_centers. destruct (x_centers d) eqn:E; simpl; repeat split; auto.
  intros [H _]. rewrite (H _ E) in E. auto.
Qed.
Lemma read_nodes_same d :
  let d' := snd (read_nodes d) in
  x_lower d' = x_lower d /\ x_upper d' = x_upper d /\ x_n d' = x_n d /\ x_centers d' = x_centers d
  /\ (coherent d -> x_nodes d' = Some (node_array d)).
Proof.
  unfold read_nodes. destruct (x_nodes d) eqn:E; simpl; repeat split; auto.
  intros [_ H]. rewrite (H _ E) in E. auto.
Qed.
Lemma arrays_ext d d' : x_lower d' = x_lower d -> x_upper d' = x_upper d -> x_n d' = x_n d ->
  center_array d' = center_array d /\ node_array d' = node_array d /\ delta d' = delta d.
Proof.
  intros A B C. unfold center_array, node_array, delta. rewrite A, B, C. auto.
Qed.
Lemma read_centers_arrays d :
  center_array (snd (read_centers d)) = center_array d /\ node_array (snd (read_centers d)) = node_array d.
Proof.
  pose proof (read_centers_same d) as (A & B & C & _). destruct (arrays_ext _ _ A B C) as (? & ? & ?). auto.
Qed.
Lemma read_nodes_arrays d :
  center_array (snd (read_nodes d)) = center_array d /\ node_array (snd (read_nodes d)) = node_array d.
Proof.
  pose proof (read_nodes_same d) as (A & B & C & _). destruct (arrays_ext _ _ A B C) as (? & ? & ?). auto.
Qed.
Lemma coherent_read_centers d : coherent d -> coherent (snd (read_centers d)).
Proof.
  intros H. pose proof (read_centers_same d) as (_ & _ & _ & D & E). specialize (E H).
  destruct (read_centers_arrays d) as [F G]. split; intros a Ha.
  - rewrite F. congruence.
  - rewrite G. rewrite D in Ha. apply H; auto.
Qed.
Lemma coherent_read_nodes d : coherent d -> coherent (snd (read_nodes d)).
Proof.
  intros H. pose proof (read_nodes_same d) as (_ & _ & _ & D & E). specialize (E H).
  destruct (read_nodes_arrays d) as [F G]. split; intros a Ha.
  - rewrite F. rewrite D in Ha. apply H; auto.
  - rewrite G. congruence.
Qed.
Lemma coherent_assign a d : coherent (fst (assign a d)).
Proof. destruct a; split; simpl; intros; discriminate. Qed.
Lemma coherent_new l u n d : new_dim l u n = Some d -> coherent d.
Proof. unfold new_dim. destruct check_validity; intros H; inversion H; split; simpl; intros; discriminate. Qed.

Lemma check_valid d : check_validity d = true <-> valid d.
Proof.
  unfold check_validity, valid. rewrite andb_true_iff, Z.ltb_lt, qltb_lt. tauto.
Qed.

(** ** Grid caches *)
Section Grid.
Variable P : Type.
Notation grid := (grid P).
Implicit Types g : grid.

Lemma Forall_update {A} (R : A -> Prop) k f l : (forall x, R x -> R (f x)) -> Forall R l -> Forall R (update k f l).
Proof.
  intros H F. revert k. induction F; intros [|k]; simpl; constructor; auto.
Qed.
Lemma map_update {A B} (h : A -> B) k f l : (forall x, h (f x) = h x) -> map h (update k f l) = map h l.
Proof. intros H. revert k. induction l; intros [|k]; simpl; f_equal; auto. Qed.

Definition all_coherent g := Forall coherent (g_dims g).

Lemma c_centers_eq g : all_coherent g ->
  map fst (map read_centers (g_dims g)) = centers_now g
  /\ map center_array (map snd (map read_centers (g_dims g))) = centers_now g
  /\ map node_array (map snd (map read_centers (g_dims g))) = nodes_now g
  /\ Forall coherent (map snd (map read_centers (g_dims g)))
  /\ existsb no_centers (map snd (map read_centers (g_dims g))) = false.
Proof.
  unfold all_coherent, centers_now, nodes_now. intros H. rewrite !map_map.
  induction H as [|d l Hd Hl IH]; simpl; [repeat split; constructor|].
  destruct IH as (A & B & C & D & E). repeat split.
  - f_equal; auto. apply read_centers_fst; auto.
  - f_equal; auto. apply read_centers_arrays.
  - f_equal; auto. apply read_centers_arrays.
  - constructor; auto. apply coherent_read_centers; auto.
  - rewrite E. unfold no_centers. pose proof (read_centers_same d) as (_ & _ & _ & _ & F).
    rewrite (F Hd). auto.
Qed.
Lemma c_nodes_eq g : all_coherent g ->
  map fst (map read_nodes (g_dims g)) = nodes_now g
  /\ map center_array (map snd (map read_nodes (g_dims g))) = centers_now g
  /\ map node_array (map snd (map read_nodes (g_dims g))) = nodes_now g
  /\ Forall coherent (map snd (map read_nodes (g_dims g)))
  /\ existsb no_nodes (map snd (map read_nodes (g_dims g))) = false.
Proof.
  unfold all_coherent, centers_now, nodes_now. intros H. rewrite !map_map.
  induction H as [|d l Hd Hl IH]; simpl; [repeat split; constructor|].
  destruct IH as (A & B & C & D & E). repeat split.
  - f_equal; auto. apply read_nodes_fst; auto.
  - f_equal; auto. apply read_nodes_arrays.
  - f_equal; auto. apply read_nodes_arrays.
  - constructor; auto. apply coherent_read_nodes; auto.
  - rewrite E. unfold no_nodes. pose proof (read_nodes_same d) as (_ & _ & _ & _ & F).
    rewrite (F Hd). auto.
Qed.

Lemma no_centers_read_nodes l :
  existsb no_centers (map snd (map read_nodes l)) = existsb no_centers l.
Proof.
  rewrite map_map. induction l as [|d l IH]; simpl; auto. rewrite IH. f_equal.
  unfold no_centers. pose proof (read_nodes_same d) as (_ & _ & _ & F & _). rewrite F. auto.
Qed.
Lemma no_nodes_read_centers l :
  existsb no_nodes (map snd (map read_centers l)) = existsb no_nodes l.
Proof.
  rewrite map_map. induction l as [|d l IH]; simpl; auto. rewrite IH. f_equal.
  unfold no_nodes. pose proof (read_centers_same d) as (_ & _ & _ & F & _). rewrite F. auto.
Qed.

(** A cached array is right whenever every dimension has its own cache. *)
Definition cc_ok g := existsb no_centers (g_dims g) = false -> forall a, g_cc g = Some a -> a = centers_now g.
Definition cn_ok g := existsb no_nodes (g_dims g) = false -> forall a, g_cn g = Some a -> a = nodes_now g.
Definition pc_ok g := existsb no_centers (g_dims g) = false -> forall a, g_pc g = Some a -> a = g_map g (centers_now g).
Definition pn_ok g := existsb no_nodes (g_dims g) = false -> forall a, g_pn g = Some a -> a = g_map g (nodes_now g).

Lemma existsb_update_assign k a l : (k < length l)%nat ->
  existsb no_centers (update k (fun d => fst (assign a d)) l) = true
  /\ existsb no_nodes (update k (fun d => fst (assign a d)) l) = true.
Proof.
  revert k. induction l as [|d l IH]; intros [|k] H; simpl in *; try lia.
  - destruct a; auto.
  - destruct (IH k ltac:(lia)) as [A B]. rewrite A, B, !orb_true_r. auto.
Qed.
Lemma update_beyond {A} k (f : A -> A) l : (length l <= k)%nat -> update k f l = l.
Proof.
  revert k. induction l; intros [|k] H; simpl in *; auto; try lia. f_equal. apply IHl. lia.
Qed.

(** What computing the centres does to the grid. *)
Lemma compute_cc_facts g : all_coherent g -> cc_ok g ->
  let g' := compute_c_centers g in
  all_coherent g' /\ centers_now g' = centers_now g /\ nodes_now g' = nodes_now g /\ g_map g' = g_map g
  /\ g_cc g' = Some (centers_now g) /\ g_cn g' = g_cn g /\ g_pc g' = g_pc g /\ g_pn g' = g_pn g
  /\ existsb no_centers (g_dims g') = false
  /\ existsb no_nodes (g_dims g') = existsb no_nodes (g_dims g).
Proof.
  intros H K. unfold compute_c_centers.
  destruct (c_centers_eq g H) as (A & B & C & D & E).
  destruct (isnone (g_cc g) || existsb no_centers (g_dims g))%bool eqn:X; simpl.
  - unfold all_coherent, centers_now, nodes_now in *. simpl. rewrite A, B, C.
    repeat split; auto. apply no_nodes_read_centers.
  - apply orb_false_iff in X. destruct X as [X1 X2]. unfold cc_ok in K.
    destruct (g_cc g) as [a|] eqn:G; [|discriminate]. rewrite (K X2 a eq_refl). repeat split; auto.
Qed.
Lemma compute_cn_facts g : all_coherent g -> cn_ok g ->
  let g' := compute_c_nodes g in
  all_coherent g' /\ centers_now g' = centers_now g /\ nodes_now g' = nodes_now g /\ g_map g' = g_map g
  /\ g_cn g' = Some (nodes_now g) /\ g_cc g' = g_cc g /\ g_pc g' = g_pc g /\ g_pn g' = g_pn g
  /\ existsb no_nodes (g_dims g') = false
  /\ existsb no_centers (g_dims g') = existsb no_centers (g_dims g).
Proof.
  intros H K. unfold compute_c_nodes.
  destruct (c_nodes_eq g H) as (A & B & C & D & E).
  destruct (isnone (g_cn g) || existsb no_nodes (g_dims g))%bool eqn:X; simpl.
  - unfold all_coherent, centers_now, nodes_now in *. simpl. rewrite A, B, C.
    repeat split; auto. apply no_centers_read_nodes.
  - apply orb_false_iff in X. destruct X as [X1 X2]. unfold cn_ok in K.
    destruct (g_cn g) as [a|] eqn:G; [|discriminate]. rewrite (K X2 a eq_refl). repeat split; auto.
Qed.

Lemma compute_pc_facts g : all_coherent g -> cc_ok g ->
  let g' := compute_p_centers g in
  all_coherent g' /\ centers_now g' = centers_now g /\ nodes_now g' = nodes_now g /\ g_map g' = g_map g
  /\ g_cn g' = g_cn g /\ g_pn g' = g_pn g
  /\ existsb no_nodes (g_dims g') = existsb no_nodes (g_dims g)
  /\ cc_ok g' /\ (pc_ok g -> g_pc g' = Some (g_map g (centers_now g)))
  /\ (isnone (g_pc g) || existsb no_centers (g_dims g) = true -> g_pc g' = Some (g_map g (centers_now g)))%bool.
Proof.
  intros H K. unfold compute_p_centers.
  pose proof (compute_cc_facts g H K) as F. cbv zeta in F.
  destruct F as (F1 & F2 & F3 & F4 & F5 & F6 & F7 & F8 & F9 & F10).
  destruct (isnone (g_pc g) || existsb no_centers (g_dims g))%bool eqn:X; simpl.
  - rewrite F5, F4. simpl. repeat split; auto.
    unfold cc_ok. simpl. intros _ a Ha. unfold centers_now in *. simpl. congruence.
  - apply orb_false_iff in X. destruct X as [X1 X2]. repeat split; auto.
    + intros Kp. unfold pc_ok in Kp. destruct (g_pc g) as [a|]; [|discriminate]. f_equal. auto.
    + discriminate.
Qed.
Lemma compute_pn_facts g : all_coherent g -> cn_ok g ->
  let g' := compute_p_nodes g in
  all_coherent g' /\ centers_now g' = centers_now g /\ nodes_now g' = nodes_now g /\ g_map g' = g_map g
  /\ g_cc g' = g_cc g /\ g_pc g' = g_pc g
  /\ existsb no_centers (g_dims g') = existsb no_centers (g_dims g)
  /\ cn_ok g' /\ (pn_ok g -> g_pn g' = Some (g_map g (nodes_now g)))
  /\ (isnone (g_pn g) || existsb no_nodes (g_dims g) = true -> g_pn g' = Some (g_map g (nodes_now g)))%bool.
Proof.
  intros H K. unfold compute_p_nodes.
  pose proof (compute_cn_facts g H K) as F. cbv zeta in F.
  destruct F as (F1 & F2 & F3 & F4 & F5 & F6 & F7 & F8 & F9 & F10).
  destruct (isnone (g_pn g) || existsb no_nodes (g_dims g))%bool eqn:X; simpl.
  - rewrite F5, F4. simpl. repeat split; auto.
    unfold cn_ok. simpl. intros _ a Ha. unfold nodes_now in *. simpl. congruence.
  - apply orb_false_iff in X. destruct X as [X1 X2]. repeat split; auto.
    + intros Kp. unfold pn_ok in Kp. destruct (g_pn g) as [a|]; [|discriminate]. f_equal. auto.
    + discriminate.
Qed.

(** The computational arrays stay right as long as no single dimension is read directly; the physical
    ones if in addition the computational ones are not read. *)
Definition inv_c g := all_coherent g /\ cc_ok g /\ cn_ok g.
Definition inv_p g := inv_c g /\ pc_ok g /\ pn_ok g.

Lemma assign_keeps g k a : inv_c g -> let g' := gstep g (GAssign k a) in
  inv_c g' /\ (inv_p g -> inv_p g').
Proof.
  intros (H & K1 & K2). cbn [gstep]. unfold with_dims.
  destruct (Nat.ltb k (length (g_dims g))) eqn:E.
  - apply Nat.ltb_lt in E. destruct (existsb_update_assign k a _ E) as [A B].
    assert (I : Forall coherent (update k (fun d => fst (assign a d)) (g_dims g)))
      by (apply Forall_update; auto; intros; apply coherent_assign).
    split; [|intros _; split]; repeat split; unfold cc_ok, cn_ok, pc_ok, pn_ok; cbn [g_dims]; auto; congruence.
  - apply Nat.ltb_ge in E. rewrite update_beyond by auto. destruct g; simpl in *.
    split; [repeat split; auto | intros (_ & ? & ?); repeat split; auto].
Qed.

Lemma inv_c_step g o : inv_c g -> dim_read o = false ->
  (match o with GAddDim d _ => coherent d | _ => True end) -> inv_c (gstep g o).
Proof.
  intros I Ho Hd. pose proof I as (H & K1 & K2). destruct o; try discriminate Ho.
  - exact (proj1 (assign_keeps g k a I)).
  - repeat split; auto; unfold cc_ok, cn_ok; simpl; discriminate.
  - repeat split; unfold all_coherent, cc_ok, cn_ok; simpl; try discriminate.
    apply Forall_app; split; auto.
  - simpl. pose proof (compute_cc_facts g H K1) as F. cbv zeta in F.
    destruct F as (F1 & F2 & F3 & F4 & F5 & F6 & F7 & F8 & F9 & F10). repeat split; auto.
    + intros _ a Ha. congruence.
    + unfold cn_ok. rewrite F10, F6, F3. exact K2.
  - simpl. pose proof (compute_cn_facts g H K2) as F. cbv zeta in F.
    destruct F as (F1 & F2 & F3 & F4 & F5 & F6 & F7 & F8 & F9 & F10). repeat split; auto.
    + unfold cc_ok. rewrite F10, F6, F2. exact K1.
    + intros _ a Ha. congruence.
  - simpl. pose proof (compute_pc_facts g H K1) as F. cbv zeta in F.
    destruct F as (F1 & F2 & F3 & F4 & F5 & F6 & F7 & F8 & _). repeat split; auto.
    unfold cn_ok. rewrite F7, F5, F3. exact K2.
  - simpl. pose proof (compute_pn_facts g H K2) as F. cbv zeta in F.
    destruct F as (F1 & F2 & F3 & F4 & F5 & F6 & F7 & F8 & _). repeat split; auto.
    unfold cc_ok. rewrite F7, F5, F2. exact K1.
Qed.
Lemma inv_p_step g o : inv_p g -> dim_read o = false -> c_read o = false ->
  (match o with GAddDim d _ => coherent d | _ => True end) -> inv_p (gstep g o).
Proof.
  intros I Ho Hc Hd. pose proof I as (I1 & Kp & Kn). pose proof I1 as (H & K1 & K2).
  pose proof (inv_c_step g o I1 Ho Hd) as I1'.
  destruct o; try discriminate.
  - exact (proj2 (assign_keeps g k a I1) I).
  - split; auto; split; unfold pc_ok, pn_ok; simpl; discriminate.
  - split; auto; split; unfold pc_ok, pn_ok; simpl; discriminate.
  - simpl. pose proof (compute_pc_facts g H K1) as F. cbv zeta in F.
    destruct F as (F1 & F2 & F3 & F4 & F5 & F6 & F7 & F8 & F9 & _). split; auto. split.
    + intros _ a Ha. rewrite F4, F2. specialize (F9 Kp). congruence.
    + unfold pn_ok. rewrite F7, F6, F4, F3. exact Kn.
  - simpl. pose proof (compute_pn_facts g H K2) as F. cbv zeta in F.
    destruct F as (F1 & F2 & F3 & F4 & F5 & F6 & F7 & F8 & F9 & _). split; auto. split.
    + unfold pc_ok. rewrite F7, F6, F4, F2. exact Kp.
    + intros _ a Ha. rewrite F4, F3. specialize (F9 Kn). congruence.
Qed.

Lemma inv_new ds m : Forall coherent ds -> inv_p (new_grid ds m).
Proof. intros. repeat split; auto; unfold cc_ok, cn_ok, pc_ok, pn_ok; simpl; discriminate. Qed.

Definition adds_coherent (os : list (gop P)) :=
  Forall (fun o => match o with GAddDim d _ => coherent d | _ => True end) os.

Lemma inv_c_run os g : inv_c g -> forallb (fun o => negb (dim_read o)) os = true -> adds_coherent os ->
  inv_c (grun g os).
Proof.
  revert g. induction os as [|o os IH]; simpl; auto. intros g I H A.
  apply andb_true_iff in H. destruct H as [H1 H2]. inversion A; subst. apply IH; auto.
  apply inv_c_step; auto. apply negb_true_iff; auto.
Qed.
Lemma inv_p_run os g : inv_p g -> forallb (fun o => negb (dim_read o) && negb (c_read o))%bool os = true ->
  adds_coherent os -> inv_p (grun g os).
Proof.
  revert g. induction os as [|o os IH]; simpl; auto. intros g I H A.
  apply andb_true_iff in H. destruct H as [H1 H2]. apply andb_true_iff in H1. destruct H1 as [H1 H3].
  inversion A; subst. apply IH; auto. apply inv_p_step; auto; apply negb_true_iff; auto.
Qed.

(** Every dimension stays coherent whatever is done. *)
Lemma coherent_step g o : all_coherent g ->
  (match o with GAddDim d _ => coherent d | _ => True end) -> all_coherent (gstep g o).
Proof.
  intros H Hd. unfold all_coherent in *.
  assert (CC : forall g, Forall coherent (g_dims g) -> Forall coherent (g_dims (compute_c_centers g))).
  { intros h Hh. unfold compute_c_centers. destruct (_ || _)%bool; simpl; auto. apply c_centers_eq; auto. }
  assert (CN : forall g, Forall coherent (g_dims g) -> Forall coherent (g_dims (compute_c_nodes g))).
  { intros h Hh. unfold compute_c_nodes. destruct (_ || _)%bool; simpl; auto. apply c_nodes_eq; auto. }
  destruct o; simpl; auto.
  - apply Forall_update; auto. intros; apply coherent_assign.
  - apply Forall_app; auto.
  - apply Forall_update; auto. intros; apply coherent_read_centers; auto.
  - apply Forall_update; auto. intros; apply coherent_read_nodes; auto.
  - unfold compute_p_centers. destruct (_ || _)%bool; simpl; auto.
  - unfold compute_p_nodes. destruct (_ || _)%bool; simpl; auto.
Qed.
Lemma coherent_run os g : all_coherent g -> adds_coherent os -> all_coherent (grun g os).
Proof.
  revert g. induction os as [|o os IH]; simpl; auto. intros g I A. inversion A; subst.
  apply IH; auto. apply coherent_step; auto.
Qed.
End Grid.

(** ** Gauges *)
Lemma div_floor d x : valid d -> x_lower d <= x ->
  let i := qfloor ((x - x_lower d) / delta d) in
  edge d i <= x /\ x < edge d (i + 1) /\ (0 <= i)%Z.
Proof.
  intros V H i. pose proof (delta_pos d V) as D.
  pose proof (qfloor_le ((x - x_lower d) / delta d)) as A. pose proof (qfloor_lt ((x - x_lower d) / delta d)) as B.
  fold i in A, B. rewrite !edge_form. rewrite inject_Z_plus in *. change (inject_Z 1) with 1 in *.
  assert (E : (x - x_lower d) / delta d * delta d == x - x_lower d) by (field; lra).
  set (r := (x - x_lower d) / delta d) in *.
  repeat split; try nra.
  assert (0 <= r) by (apply Qle_shift_div_l; lra).
  apply Z.lt_succ_r. rewrite Zlt_Qlt. unfold Z.succ. rewrite inject_Z_plus. change (inject_Z 1) with 1. change (inject_Z 0) with 0. lra.
Qed.
Lemma index_unique d x i j : valid d -> edge d i <= x -> x < edge d (i + 1) ->
  edge d j <= x -> x < edge d (j + 1) -> i = j.
Proof.
  intros V A B C D.
  destruct (Z.lt_trichotomy i j) as [L | [L | L]]; auto.
  - pose proof (edge_le d (i + 1) j V ltac:(lia)). lra.
  - pose proof (edge_le d (j + 1) i V ltac:(lia)). lra.
Qed.

Lemma gauge_inside_iff ds p : gauge_inside ds p = true <-> in_domain ds p.
Proof.
  revert p. induction ds as [|d ds IH]; intros p; simpl; [tauto|].
  destruct p as [|x p]; [split; [discriminate|tauto]|].
  rewrite !andb_true_iff, qleb_le, qltb_lt, IH. tauto.
Qed.
Lemma gauge_index_cell ds p : Forall valid ds -> in_domain ds p -> in_cell ds p (gauge_index ds p).
Proof.
  intros V. revert p. induction V as [|d ds Vd V IH]; intros p; simpl; auto.
  destruct p as [|x p]; [tauto|]. intros (A & B & C). simpl.
  destruct (div_floor d x Vd A) as (E & F & G). repeat split; auto.
  apply Z.nle_gt. intros L. pose proof (edge_le d _ _ Vd L). rewrite edge_upper in H by auto. lra.
Qed.
Lemma in_cell_unique ds p ix jx : Forall valid ds -> in_cell ds p ix -> in_cell ds p jx -> ix = jx.
Proof.
  intros V. revert p ix jx. induction V as [|d ds Vd V IH]; intros p ix jx; simpl.
  - destruct ix, jx; tauto.
  - destruct p as [|x p], ix as [|i ix]; try tauto. destruct jx as [|j jx]; try tauto.
    intros (A & B & C & D) (A' & B' & C' & D'). f_equal; eauto using index_unique.
Qed.
Lemma in_cell_domain ds p ix : Forall valid ds -> in_cell ds p ix -> in_domain ds p.
Proof.
  intros V. revert p ix. induction V as [|d ds Vd V IH]; intros p ix; simpl; auto.
  destruct p as [|x p], ix as [|i ix]; try tauto. intros (A & B & C & D).
  pose proof (edge_le d 0 i Vd ltac:(lia)). pose proof (edge_le d (i + 1) (x_n d) Vd ltac:(lia)).
  rewrite edge_lower in H. rewrite edge_upper in H0 by auto. repeat split; try lra. eauto.
Qed.

Lemma add_gauges_filter ds coords st :
  add_gauges ds coords st =
  (fst st ++ map (gauge_index ds) (filter (gauge_inside ds) coords), snd st ++ filter (gauge_inside ds) coords).
Proof.
  unfold add_gauges. revert st. induction coords as [|p coords IH]; intros st; simpl.
  - rewrite !app_nil_r. destruct st; auto.
  - destruct (gauge_inside ds p); rewrite IH; simpl; auto. rewrite <- !app_assoc. auto.
Qed.

(** ** Local grids *)
Lemma cuts_bounds rs lo hi : cuts lo hi rs ->
  (lo <= hi)%Z /\ forall a b, In (a, b) rs -> (lo <= a < b)%Z /\ (b <= hi)%Z.
Proof.
  revert lo. induction rs as [|[a b] rs IH]; simpl.
  - intros lo ->. split; [lia | tauto].
  - intros lo (-> & Hab & H). destruct (IH _ H) as [A B]. split; [lia|].
    intros a' b' [E|E]; [inversion E; subst; lia|]. specialize (B _ _ E). lia.
Qed.
(** Each index is in exactly one range. *)
Lemma cuts_owner rs lo hi i : cuts lo hi rs -> (lo <= i < hi)%Z ->
  exists r, In r rs /\ (fst r <= i < snd r)%Z /\ forall r', In r' rs -> (fst r' <= i < snd r')%Z -> r' = r.
Proof.
  revert lo. induction rs as [|[a b] rs IH]; simpl.
  - intros lo -> H. lia.
  - intros lo (-> & Hab & H) Hi. destruct (cuts_bounds _ _ _ H) as [B1 B2].
    destruct (Z.ltb i b) eqn:E.
    + apply Z.ltb_lt in E. exists (lo, b). simpl. split; auto. split; [lia|].
      intros [a' b'] [Hr|Hr] Hi'; auto. specialize (B2 _ _ Hr). simpl in *. lia.
    + apply Z.ltb_ge in E. destruct (IH _ H ltac:(lia)) as (r & R1 & R2 & R3). exists r. split; auto. split; auto.
      intros r' [Hr|Hr] Hi'; auto. subst r'. simpl in *. lia.
Qed.

Lemma local_dim_some d lo hi : valid d -> (lo < hi)%Z ->
  exists l, local_dim d (lo, hi) = Some (l, Z.eqb lo 0, Z.eqb hi (x_n d))
    /\ x_lower l = x_lower d + inject_Z lo * delta d /\ x_upper l = x_lower d + inject_Z hi * delta d
    /\ x_n l = (hi - lo)%Z /\ x_centers l = None /\ x_nodes l = None /\ valid l
    /\ delta l == delta d.
Proof.
  intros V H. pose proof (delta_pos d V) as D.
  assert (L : inject_Z lo < inject_Z hi) by (rewrite <- Zlt_Qlt; auto).
  unfold local_dim, new_dim.
  match goal with |- context [check_validity ?x] => set (l := x) end.
  assert (Vl : valid l) by (split; simpl; [lia | nra]).
  rewrite (proj2 (check_valid l) Vl). exists l. repeat (split; auto).
  unfold delta at 1. simpl.
  assert (E : inject_Z (hi - lo) == inject_Z hi - inject_Z lo)
    by (unfold Z.sub; rewrite inject_Z_plus, inject_Z_opp; reflexivity).
  rewrite E. field. lra.
Qed.
Lemma local_edge d lo hi l b1 b2 i : valid d -> (lo < hi)%Z -> local_dim d (lo, hi) = Some (l, b1, b2) ->
  edge l i == edge d (lo + i).
Proof.
  intros V H E. destruct (local_dim_some d lo hi V H) as (l' & E' & A & B & C & _ & _ & Vl & D).
  rewrite E' in E. inversion E; subst l'. rewrite !edge_form, A, D, inject_Z_plus. ring.
Qed.
