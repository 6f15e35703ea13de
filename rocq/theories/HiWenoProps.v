(** Properties C111 and C112: the component-wise WENO reconstructions of orders 5, 7, ..., 17. *)
From Verif Require Import Base BCModel BCSpec Classic1DModel Classic1DSpec Classic1DProps SemiModel SemiSpec SemiProofs SemiProps
  HiWenoModel HiWenoSpec HiWenoProofs HiWenoProofs2 HiWenoProofs3.
Open Scope Q_scope.

Lemma table_of k : (3 <= k <= 9)%nat -> exists table, weno_table (2 * Z.of_nat k - 1) = Some table /\ check_table k table = true.
Proof.
  intro H. assert (E : exists table, weno_table (2 * Z.of_nat k - 1) = Some table).
  { do 10 (destruct k as [|k]; [try lia; eexists; reflexivity|]). lia. }
  destruct E as (table & E). exists table. split; [exact E|]. destruct (tables_ok _ _ E) as (_ & K).
  unfold ghost_cells in K. replace (2 * Z.of_nat k - 1 + 1)%Z with (Z.of_nat k * 2)%Z in K by lia.
  rewrite Z.div_mul, Nat2Z.id in K by lia. exact K.
Qed.
Lemma slice_in ng maxnx i : (ng <= i <= maxnx + ng + 1)%Z -> in_slice ng (maxnx + ng + 2) i = true.
Proof. intro H. unfold in_slice. apply andb_true_intro. split; [apply Z.leb_le|apply Z.ltb_lt]; lia. Qed.
Lemma slice_out ng maxnx i : ~ (ng <= i <= maxnx + ng + 1)%Z -> in_slice ng (maxnx + ng + 2) i = false.
Proof. intro H. unfold in_slice. destruct (Z.leb_spec ng i), (Z.ltb_spec i (maxnx + ng + 2)); try reflexivity. lia. Qed.

(** Order 2k-1 for k = 3, ..., 9: the edge values in the interior cells and one more cell on either side are the WENO values
    of the mathematical definition, with ideal weights; all other cells keep what the arrays contained. *)
Theorem C111_reconstruction :
  forall k, (3 <= k <= 9)%nat ->
  exists dl dr, ideal k (- (1 # 2)) dl /\ ideal k (1 # 2) dr /\
  forall eps ng maxnx ql0 qr0 q, 0 < eps ->
  exists ql qr, weno_comp eps (2 * Z.of_nat k - 1) ng maxnx ql0 qr0 q = Some (ql, qr) /\
  (forall i, (ng <= i <= maxnx + ng + 1)%Z -> forall ps, stencils k ps q i ->
     ql i == weno_value eps (- (1 # 2)) dl ps /\ qr i == weno_value eps (1 # 2) dr ps) /\
  (forall i, ~ (ng <= i <= maxnx + ng + 1)%Z -> ql i = ql0 i /\ qr i = qr0 i).
Proof.
  intros k Hk. destruct (table_of k Hk) as (table & E & OK).
  exists (map st_wl table), (map st_wr table). split; [exact (ideal_left k table OK)|]. split; [exact (ideal_right k table OK)|].
  intros eps ng maxnx ql0 qr0 q _. unfold weno_comp. rewrite E. cbn [option_map]. unfold weno_loop. do 2 eexists.
  split; [reflexivity|]. cbn beta. split; intros i Hi.
  - intros ps St. rewrite (slice_in ng maxnx i Hi). exact (cell_value k table OK eps ps q i St).
  - rewrite (slice_out ng maxnx i Hi). split; reflexivity.
Qed.
Print Assumptions C111_reconstruction.

(** The polynomials of the stencils exist whatever the data. *)
Theorem C111_stencils_exist : forall k q i, exists ps, stencils k ps q i.
Proof. exact stencils_exist. Qed.
Print Assumptions C111_stencils_exist.

(** The quotients are well defined: the indicators of smoothness are nonnegative, so no denominator vanishes. *)
Theorem C111_well_defined :
  forall order table eps q i, weno_table order = Some table -> 0 < eps ->
  (forall s, In s table -> 0 <= sigma s q i) /\
  0 < fold_right (fun s v => omega eps (st_wl s) s q i + v) 0 table /\
  0 < fold_right (fun s v => omega eps (st_wr s) s q i + v) 0 table.
Proof.
  intros order table eps q i E He. destruct (tables_ok _ _ E) as (_ & OK). set (k := Z.to_nat (ghost_cells order)) in *.
  destruct (stencils_exist k q i) as (ps & St). destruct (table_facts k table OK) as (LT & HK & _).
  destruct (table_matches k table OK ps q i St) as (A & _). destruct (weights_positive k table OK) as (Wl & Wr).
  assert (L9 : Forall (fun p => (length p <= 9)%nat) ps).
  { apply Forall_forall. intros p Hp. apply (In_nth _ _ []) in Hp. destruct Hp as (r & Hr & <-).
    destruct St as (L & F). rewrite (proj1 (F r ltac:(lia))). lia. }
  assert (S : forall s, In s table -> 0 <= sigma s q i).
  { clear -A L9. induction A as [|s p table ps M A IH]; intros s' [].
    - subst s'. apply Forall_cons_iff in L9. rewrite (proj1 M). apply smoothness_nonneg. tauto.
    - apply Forall_cons_iff in L9. apply IH; tauto. }
  assert (P : forall w, Forall (fun d => 0 < d) (map w table) -> table <> [] ->
    0 < fold_right (fun s v => omega eps (w s) s q i + v) 0 table).
  { clear -S He. intros w W N. assert (K : forall s, In s table -> 0 < omega eps (w s) s q i).
    { intros s Hs. unfold omega. rewrite Forall_map, Forall_forall in W. specialize (W s Hs). cbn beta in W. specialize (S s Hs).
      apply Qlt_shift_div_l; [|rewrite Qmult_0_l; exact W]. setoid_replace 0 with (0 * 0) by ring.
      apply Qmult_lt_compat_nonneg; split; lra. }
    clear -K N. destruct table as [|s table]; [congruence|]. cbn [fold_right].
    assert (T : forall t, (forall s, In s t -> 0 < omega eps (w s) s q i) -> 0 <= fold_right (fun s v => omega eps (w s) s q i + v) 0 t).
    { induction t as [|a t IH]; intro H; cbn [fold_right]; [lra|]. pose proof (H a (or_introl eq_refl)).
      pose proof (IH (fun s Hs => H s (or_intror Hs))). lra. }
    pose proof (K s (or_introl eq_refl)). pose proof (T table (fun s Hs => K s (or_intror Hs))). lra. }
  assert (N : table <> []) by (intro N; rewrite N in LT; cbn in LT; lia).
  split; [exact S|]. split; [apply P|apply P]; assumption.
Qed.
Print Assumptions C111_well_defined.

(** With at least k ghost cells the loop reads only the cells 1, ..., maxnx+2 num_ghost of the ghosted array, and cell i
    depends only on the cells i-k+1, ..., i+k-1. The solver allocates exactly k ghost cells. *)
Theorem C111_local :
  forall k eps ng maxnx ql0 qr0 q q', (3 <= k <= 9)%nat -> (Z.of_nat k <= ng)%Z ->
  ghost_cells (2 * Z.of_nat k - 1) = Z.of_nat k /\
  ((forall i, (1 <= i <= maxnx + 2 * ng)%Z -> q i = q' i) ->
   exists ql qr ql' qr', weno_comp eps (2 * Z.of_nat k - 1) ng maxnx ql0 qr0 q = Some (ql, qr) /\
     weno_comp eps (2 * Z.of_nat k - 1) ng maxnx ql0 qr0 q' = Some (ql', qr') /\
     forall i, ql i = ql' i /\ qr i = qr' i) /\
  (forall i, (forall j, (i - Z.of_nat k + 1 <= j <= i + Z.of_nat k - 1)%Z -> q j = q' j) ->
   exists ql qr ql' qr', weno_comp eps (2 * Z.of_nat k - 1) ng maxnx ql0 qr0 q = Some (ql, qr) /\
     weno_comp eps (2 * Z.of_nat k - 1) ng maxnx ql0 qr0 q' = Some (ql', qr') /\ ql i = ql' i /\ qr i = qr' i).
Proof.
  intros k eps ng maxnx ql0 qr0 q q' Hk Hg. destruct (table_of k Hk) as (table & E & OK). split.
  { unfold ghost_cells. replace (2 * Z.of_nat k - 1 + 1)%Z with (Z.of_nat k * 2)%Z by lia. apply Z.div_mul. lia. }
  unfold weno_comp. rewrite E. cbn [option_map]. unfold weno_loop. split.
  - intro H. do 4 eexists. split; [reflexivity|]. split; [reflexivity|]. cbn beta. intro i.
    destruct (in_slice ng (maxnx + ng + 2) i) eqn:I; [|split; reflexivity].
    unfold in_slice in I. rewrite Bool.andb_true_iff, Z.leb_le, Z.ltb_lt in I.
    rewrite (cell_local k table OK eps q q' i i); [split; reflexivity|]. intros a Ha. apply H. lia.
  - intros i H. do 4 eexists. split; [reflexivity|]. split; [reflexivity|]. cbn beta.
    rewrite (cell_local k table OK eps q q' i i); [split; reflexivity|]. intros a Ha. apply H. lia.
Qed.
Print Assumptions C111_local.

(** Any other order stops the program. *)
Theorem C111_other_orders :
  forall eps order ng maxnx ql0 qr0 q,
  weno_comp eps order ng maxnx ql0 qr0 q = None <-> ~ exists k, (3 <= k <= 9)%nat /\ order = (2 * Z.of_nat k - 1)%Z.
Proof.
  intros eps order ng maxnx ql0 qr0 q. unfold weno_comp. split.
  - intros H (k & Hk & ->). destruct (table_of k Hk) as (table & E & _). rewrite E in H. discriminate.
  - intro H. destruct (weno_table order) as [table|] eqn:E; [|reflexivity]. exfalso. apply H.
    destruct (tables_ok _ _ E) as (A & OK). exists (Z.to_nat (ghost_cells order)). split; [|exact A].
    clear -E. unfold weno_table in E.
    repeat match type of E with (if (order =? ?n)%Z then _ else _) = _ =>
      destruct (Z.eqb_spec order n) as [->|]; [vm_compute; lia|] end. discriminate.
Qed.
Print Assumptions C111_other_orders.

(** The values lie between bounds of the values of the stencils' polynomials. *)
Theorem C111_convex :
  forall k eps ng maxnx ql0 qr0 q ql qr i ps lo hi, (3 <= k <= 9)%nat -> 0 < eps ->
  weno_comp eps (2 * Z.of_nat k - 1) ng maxnx ql0 qr0 q = Some (ql, qr) -> (ng <= i <= maxnx + ng + 1)%Z -> stencils k ps q i ->
  (Forall (fun p => lo <= value p (- (1 # 2)) <= hi) ps -> lo <= ql i <= hi) /\
  (Forall (fun p => lo <= value p (1 # 2) <= hi) ps -> lo <= qr i <= hi).
Proof.
  intros k eps ng maxnx ql0 qr0 q ql qr i ps lo hi Hk He H Hi St.
  destruct (table_of k Hk) as (table & E & OK). unfold weno_comp in H. rewrite E in H. cbn [option_map] in H. unfold weno_loop in H.
  injection H as <- <-. rewrite (slice_in ng maxnx i Hi). destruct (cell_value k table OK eps ps q i St) as (A & B). rewrite A, B.
  destruct (weights_positive k table OK) as (Wl & Wr). destruct (table_facts k table OK) as (LT & _).
  assert (L : length ps = k) by exact (proj1 St).
  assert (K : forall x, Forall (fun p => lo <= value p x <= hi) ps -> Forall (fun p => (length p <= 9)%nat /\ lo <= value p x <= hi) ps).
  { intros x F. apply Forall_forall. intros p Hp. rewrite Forall_forall in F. split; [|exact (F p Hp)].
    apply (In_nth _ _ []) in Hp. destruct Hp as (r & Hr & <-). rewrite (proj1 (proj2 St r ltac:(lia))). lia. }
  assert (N : forall w : stencil -> Q, map w table <> []) by (intros w N; apply (f_equal (@length Q)) in N; rewrite map_length in N; cbn in N; lia).
  split; intro F; apply weno_value_bounds; auto; rewrite map_length; lia.
Qed.
Print Assumptions C111_convex.

(** Averages of one polynomial with k coefficients give exactly the values of that polynomial at the edges. *)
Theorem C111_exact :
  forall k eps ng maxnx ql0 qr0 q ql qr i p, (3 <= k <= 9)%nat -> 0 < eps ->
  weno_comp eps (2 * Z.of_nat k - 1) ng maxnx ql0 qr0 q = Some (ql, qr) -> (ng <= i <= maxnx + ng + 1)%Z ->
  length p = k -> (forall j, (- Z.of_nat k < j < Z.of_nat k)%Z -> q (i + j)%Z == average p j) ->
  ql i == value p (- (1 # 2)) /\ qr i == value p (1 # 2).
Proof.
  intros k eps ng maxnx ql0 qr0 q ql qr i p Hk He H Hi Lp Hq.
  assert (St : stencils k (repeat p k) q i).
  { split; [apply repeat_length|]. intros r Hr. rewrite nth_indep with (d' := p) by (rewrite repeat_length; exact Hr).
    rewrite nth_repeat. split; [exact Lp|]. intros j Hj. apply Hq. lia. }
  assert (F : forall x, Forall (fun p' => value p x <= value p' x <= value p x) (repeat p k)).
  { intro x. apply Forall_forall. intros p' Hp'. apply repeat_spec in Hp'. subst p'. split; apply Qle_refl. }
  pose proof (proj1 (C111_convex k eps ng maxnx ql0 qr0 q ql qr i (repeat p k) _ _ Hk He H Hi St) (F _)).
  pose proof (proj2 (C111_convex k eps ng maxnx ql0 qr0 q ql qr i (repeat p k) _ _ Hk He H Hi St) (F _)).
  split; lra.
Qed.
Print Assumptions C111_exact.

(** Mirrored data give mirrored edge values. *)
Theorem C111_mirror :
  forall k eps ng maxnx ql0 qr0 q ql qr ql' qr', (3 <= k <= 9)%nat -> 0 < eps ->
  weno_comp eps (2 * Z.of_nat k - 1) ng maxnx ql0 qr0 q = Some (ql, qr) ->
  weno_comp eps (2 * Z.of_nat k - 1) ng maxnx ql0 qr0 (fun i => q (maxnx + 2 * ng + 1 - i)%Z) = Some (ql', qr') ->
  forall i, (ng <= i <= maxnx + ng + 1)%Z ->
  ql' i == qr (maxnx + 2 * ng + 1 - i)%Z /\ qr' i == ql (maxnx + 2 * ng + 1 - i)%Z.
Proof.
  intros k eps ng maxnx ql0 qr0 q ql qr ql' qr' Hk He H H' i Hi.
  destruct (table_of k Hk) as (table & E & OK). unfold weno_comp in H, H'. rewrite E in H, H'. cbn [option_map] in H, H'. unfold weno_loop in H, H'.
  set (N := (maxnx + 2 * ng + 1)%Z) in *.
  assert (X : forall (a b c d : Z -> Q), Some (a, b) = Some (c, d) -> c = a /\ d = b) by (intros a b c d X; injection X; auto).
  destruct (X _ _ _ _ H) as (-> & ->). destruct (X _ _ _ _ H') as (-> & ->). clear H H' X. cbn beta.
  rewrite (slice_in ng maxnx i Hi), (slice_in ng maxnx (N - i)) by (unfold N; lia).
  destruct (stencils_exist k q (N - i)) as (ps & St).
  pose proof (stencils_reflect k ps q (N - i) St) as St'.
  rewrite (cell_local k table OK eps (fun i => q (N - i)%Z) (fun j => q (- j)%Z) i (- (N - i))) by (intros a _; f_equal; lia).
  destruct (cell_value k table OK eps ps q (N - i) St) as (A & B). destruct (cell_value k table OK eps _ _ _ St') as (A' & B').
  rewrite A, B, A', B'. pose proof (tables_mirrored _ _ E) as M. destruct (table_facts k table OK) as (LT & _).
  assert (L : length ps = k) by exact (proj1 St).
  split.
  - rewrite M. apply weno_value_reflect; [reflexivity|rewrite map_length; lia].
  - replace (map st_wr table) with (rev (map st_wl table)) by (rewrite M; apply rev_involutive).
    apply weno_value_reflect; [reflexivity|rewrite map_length; lia].
Qed.
Print Assumptions C111_mirror.

(** *** C112: conservation on a periodic grid with the reconstructions of all orders *)
Theorem C112_periodic_conservation :
  forall k C flux eps ql0 qr0 q aux qbc0 auxbc0, (3 <= k <= 9)%nat ->
  Z.of_nat (c_ng C) = ghost_cells (2 * Z.of_nat k - 1) ->
  c_capa C = None -> periodic_bc (c_bc C) -> (Z.of_nat (c_ng C) <= cells C)%Z -> conservative (c_neq C) flux (c_rp C) ->
  exists table, weno_table (2 * Z.of_nat k - 1) = Some table /\
  exists d cfl,
  dq_hyperbolic (FRecon (fortran_weno eps table (Z.of_nat (c_ng C)) (cells C) ql0 qr0) None) C q aux qbc0 auxbc0 = DQ d cfl /\
  forall m, (0 <= m < Z.of_nat (c_neq C))%Z -> total C 0 (flat aux) d m == 0.
Proof.
  intros k C flux eps ql0 qr0 q aux qbc0 auxbc0 Hk Hg Hcapa HP Hmx HC. destruct (table_of k Hk) as (table & E & OK).
  exists table. split; [exact E|].
  assert (G : c_ng C = k).
  { unfold ghost_cells in Hg. replace (2 * Z.of_nat k - 1 + 1)%Z with (Z.of_nat k * 2)%Z in Hg by lia. rewrite Z.div_mul in Hg; lia. }
  set (M := FRecon _ None).
  assert (HM : sound_method C flux M).
  { split; [|discriminate]. apply (fortran_weno_keeps k table); unfold cells in *; (exact OK || lia). }
  assert (HA : capa_in_aux C) by (intros kc Ek; rewrite Hcapa in Ek; discriminate).
  assert (HK : forall i, (0 <= i < cells C)%Z -> ~ capacity C (flat aux) i == 0).
  { intros i _. unfold capacity. rewrite Hcapa. discriminate. }
  pose proof (C32_periodic_conservation M C flux q aux qbc0 auxbc0 (or_introl Hcapa) ltac:(lia) HP Hmx HC HA HM HK) as K.
  destruct (dq_hyperbolic M C q aux qbc0 auxbc0) as [d cfl|e| |].
  - exists d, cfl. split; [reflexivity|exact K].
  - destruct K.
  - destruct K as (? & ? & ? & N & _). discriminate N.
  - destruct K as (? & ? & ? & N & _). discriminate N.
Qed.
Print Assumptions C112_periodic_conservation.

(** *** Concrete cases *)
(** A jump between cells 5 and 6, order 5: the values at the edges of cell 5 stay close to 0. A cubic polynomial, order 7:
    the hypotheses of [C111_exact]. *)
Definition jump : Z -> Q := fun i => if (i <=? 5)%Z then 0 else 1.
Definition cubic_averages : Z -> Q := fun i => average [1; 2; 0; 3] (i - 5).
Example C111_example :
  match weno_comp (1 # 1000) 5 3 4 (fun _ => 7) (fun _ => 7) jump with
  | Some (ql, qr) => (qltb (qr 5%Z) (1 # 1000) && qltb (- (1 # 1000)) (ql 5%Z) && negb (Qeq_bool (qr 5%Z) 0)
                      && Qeq_bool (ql 2%Z) 7 && Qeq_bool (ql 9%Z) 7 && negb (Qeq_bool (ql 8%Z) 7))%bool = true
  | None => False
  end /\
  (exists ql qr, weno_comp (1 # 1000) 7 4 4 (fun _ => 7) (fun _ => 7) cubic_averages = Some (ql, qr) /\
     ql 5%Z == - (3 # 8) /\ qr 5%Z == 19 # 8) /\
  weno_comp (1 # 1000) 6 4 4 (fun _ => 7) (fun _ => 7) cubic_averages = None.
Proof.
  split; [vm_compute; reflexivity|]. split; [|reflexivity].
  destruct (C111_reconstruction 4 ltac:(lia)) as (dl & dr & _ & _ & H).
  destruct (H (1 # 1000) 4%Z 4%Z (fun _ => 7) (fun _ => 7) cubic_averages ltac:(reflexivity)) as (ql & qr & E & _).
  exists ql, qr. split; [exact E|].
  assert (K : ql 5%Z == value [1; 2; 0; 3] (- (1 # 2)) /\ qr 5%Z == value [1; 2; 0; 3] (1 # 2));
    [|destruct K as (-> & ->); split; reflexivity].
  refine (C111_exact 4 (1 # 1000) 4 4 (fun _ => 7) (fun _ => 7) cubic_averages ql qr 5 [1; 2; 0; 3] _ _ E _ _ _); try lia; try reflexivity.
  intros j _. unfold cubic_averages. replace (5 + j - 5)%Z with j by lia. reflexivity.
Qed.
(** Burgers' equation on 4 periodic cells with the reconstruction of order 7. *)
Definition hi_set : settings :=
  mkSet 1 1 0 4 false 2 (fun _ => 0%Z) burgers 1 (1 # 4) None
        (mkDim 4 Periodic Periodic Periodic Periodic true true 1) (mkFuns Q None None None None).
Example C112_example :
  Z.of_nat (c_ng hi_set) = ghost_cells 7 /\ c_capa hi_set = None /\ periodic_bc (c_bc hi_set) /\
  (Z.of_nat (c_ng hi_set) <= cells hi_set)%Z /\ conservative (c_neq hi_set) burgers_flux (c_rp hi_set).
Proof.
  split; [reflexivity|]. split; [reflexivity|]. split; [vm_compute; tauto|]. split; [vm_compute; discriminate|apply burgers_conservative].
Qed.
