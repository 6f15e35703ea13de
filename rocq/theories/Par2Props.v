(** Properties C147 and C148: parallel runs in two and three dimensions. *)
From Verif Require Import Base TimeModel BCModel BCSpec BCProofs LimiterModel LimiterSpec LimiterProofs LimiterProps
  Classic1DModel Classic1DSpec Classic1DProofs Classic1DProps GeometrySpec ParallelModel ParallelSpec ParallelProps
  SweepModel SweepSpec SweepProofs SweepProofs3 SweepProps RunModel UnsplitModel UnsplitSpec UnsplitProps
  Unsplit3Model Unsplit3Spec Unsplit3Props Par2Model Par2Spec Par2Proofs2 Par2Proofs6 Par2Proofs7 Par2Proofs8.
Import BCSpec.

(** The serial steps are the ones of C33, C34 and C93. *)
Theorem C147_serial_steps :
  forall undef S trans rpt rptt stale q aux qbc0 auxbc0,
  mserial_step (split_kernel undef) S q aux qbc0 auxbc0 = split_step undef S q aux qbc0 auxbc0 /\
  mserial_step (unsplit_kernel undef trans) S q aux qbc0 auxbc0 = unsplit_step undef S trans q aux qbc0 auxbc0 /\
  mserial_step (unsplit3_kernel undef rpt rptt stale trans) S q aux qbc0 auxbc0 = unsplit3_step undef S rpt rptt stale trans q aux qbc0 auxbc0.
Proof. intros. split; [|split]; reflexivity. Qed.
Print Assumptions C147_serial_steps.

(** ** C147: one unsplit step in two dimensions.  Whichever processes hold the cells, the new values are those of the serial
    step and the reduced Courant number is the serial one. *)
Theorem C147_step_2d :
  forall undef S trans css q aux qbc0 auxbc0 auxbc0',
  length (n_bcs S) = 2%nat -> (2 <= n_ng S)%nat ->
  Forall (fit_dim (n_ng S) (Nat.ltb 0 (n_naux S)) (Z.of_nat (n_neq S))) (n_bcs S) -> mdecomposed (n_ng S) (n_bcs S) css -> mcapa_in_aux S ->
  match unsplit_step undef S trans q aux qbc0 auxbc0, mpar_step (unsplit_kernel undef trans) S (combos css) q aux auxbc0' with
  | MStepped q1 c1, MStepped q2 c2 =>
      (forall m ix, (0 <= m < Z.of_nat (n_neq S))%Z -> in_domain (n_bcs S) ix -> q2 m ix = q1 m ix) /\ c2 == c1
  | _, _ => False
  end.
Proof.
  intros undef S trans css q aux qbc0 auxbc0 auxbc0' H2 Hg HF HD Hk.
  exact (mpar_step_serial (unsplit_kernel undef trans) (unsplit_kernel undef trans) S css ltac:(lia) HF HD (unsplit_parts S css Hg HF HD Hk undef H2 trans) Hg Hk
    q aux q aux qbc0 auxbc0 auxbc0' (unsplit_courant S Hg HF undef H2 trans) (unsplit_courant_local S css Hg HF HD undef H2 trans)
    (fun m ix _ _ => eq_refl) (fun m ix _ _ => eq_refl)).
Qed.
Print Assumptions C147_step_2d.

(** ** C147: one unsplit step in three dimensions, whatever the work arrays of the processes held before *)
Theorem C147_step_3d :
  forall undef S rpt rptt stale stale' trans css q aux qbc0 auxbc0 auxbc0',
  length (n_bcs S) = 3%nat -> (2 <= n_ng S)%nat -> described (n_order S) trans ->
  Forall (fit_dim (n_ng S) (Nat.ltb 0 (n_naux S)) (Z.of_nat (n_neq S))) (n_bcs S) -> mdecomposed (n_ng S) (n_bcs S) css -> mcapa_in_aux S ->
  match unsplit3_step undef S rpt rptt stale trans q aux qbc0 auxbc0, mpar_step (unsplit3_kernel undef rpt rptt stale' trans) S (combos css) q aux auxbc0' with
  | MStepped q1 c1, MStepped q2 c2 =>
      (forall m ix, (0 <= m < Z.of_nat (n_neq S))%Z -> in_domain (n_bcs S) ix -> q2 m ix = q1 m ix) /\ c2 == c1
  | _, _ => False
  end.
Proof.
  intros undef S rpt rptt stale stale' trans css q aux qbc0 auxbc0 auxbc0' H3 Hg Ht HF HD Hk.
  exact (mpar_step_serial (unsplit3_kernel undef rpt rptt stale trans) (unsplit3_kernel undef rpt rptt stale' trans) S css ltac:(lia) HF HD
    (unsplit3_parts S css Hg HF HD Hk undef H3 rpt rptt trans Ht stale stale') Hg Hk
    q aux q aux qbc0 auxbc0 auxbc0' (unsplit3_courant S Hg HF undef H3 rpt rptt trans stale) (unsplit3_courant_local S css Hg HF HD undef H3 rpt rptt trans stale')
    (fun m ix _ _ => eq_refl) (fun m ix _ _ => eq_refl)).
Qed.
Print Assumptions C147_step_3d.

(** ** C147: whole runs.  Same attempted steps, step sizes, verdicts, times, cells, status and exceptions, with any source
    term, splitting and before_step that act on the cells. *)
Theorem C147_run_2d :
  forall (X E : Type) undef S trans css left left' source source_split before (s : solver E) (so : run_sol X) tend,
  length (n_bcs S) = 2%nat -> (2 <= n_ng S)%nat ->
  Forall (fit_dim (n_ng S) (Nat.ltb 0 (n_naux S)) (Z.of_nat (n_neq S))) (n_bcs S) -> mdecomposed (n_ng S) (n_bcs S) css -> mcapa_in_aux S ->
  respects_mcells S before -> (forall f, source = Some f -> forall d, respects_mcells S (f d)) ->
  let r := mserial_run (unsplit_kernel undef trans) S left source source_split before s so tend in
  let r' := mpar_run (unsplit_kernel undef trans) S (combos css) left' source source_split before s so tend in
  same_solver (r_solver r) (r_solver r') /\ same_msolution S (r_sol r) (r_sol r') /\
  Forall2 (same_mevent S) (r_trace r) (r_trace r') /\ r_err r = r_err r'.
Proof.
  intros X E undef S trans css left left' source source_split before s so tend H2 Hg HF HD Hk HB HS.
  apply mpar_run_serial; try assumption. intros d q aux q' aux' qbc0 auxbc0 auxbc0' Sq Sx.
  exact (mpar_step_serial (unsplit_kernel undef trans) (unsplit_kernel undef trans) (with_mdt S d) css ltac:(cbn [with_mdt n_ng]; lia) HF HD
    (unsplit_parts (with_mdt S d) css Hg HF HD Hk undef H2 trans) Hg Hk
    q aux q' aux' qbc0 auxbc0 auxbc0' (unsplit_courant (with_mdt S d) Hg HF undef H2 trans) (unsplit_courant_local (with_mdt S d) css Hg HF HD undef H2 trans) Sq Sx).
Qed.
Print Assumptions C147_run_2d.
Theorem C147_run_3d :
  forall (X E : Type) undef S rpt rptt stale stale' trans css left left' source source_split before (s : solver E) (so : run_sol X) tend,
  length (n_bcs S) = 3%nat -> (2 <= n_ng S)%nat -> described (n_order S) trans ->
  Forall (fit_dim (n_ng S) (Nat.ltb 0 (n_naux S)) (Z.of_nat (n_neq S))) (n_bcs S) -> mdecomposed (n_ng S) (n_bcs S) css -> mcapa_in_aux S ->
  respects_mcells S before -> (forall f, source = Some f -> forall d, respects_mcells S (f d)) ->
  let r := mserial_run (unsplit3_kernel undef rpt rptt stale trans) S left source source_split before s so tend in
  let r' := mpar_run (unsplit3_kernel undef rpt rptt stale' trans) S (combos css) left' source source_split before s so tend in
  same_solver (r_solver r) (r_solver r') /\ same_msolution S (r_sol r) (r_sol r') /\
  Forall2 (same_mevent S) (r_trace r) (r_trace r') /\ r_err r = r_err r'.
Proof.
  intros X E undef S rpt rptt stale stale' trans css left left' source source_split before s so tend H3 Hg Ht HF HD Hk HB HS.
  apply mpar_run_serial; try assumption. intros d q aux q' aux' qbc0 auxbc0 auxbc0' Sq Sx.
  exact (mpar_step_serial (unsplit3_kernel undef rpt rptt stale trans) (unsplit3_kernel undef rpt rptt stale' trans) (with_mdt S d) css ltac:(cbn [with_mdt n_ng]; lia) HF HD
    (unsplit3_parts (with_mdt S d) css Hg HF HD Hk undef H3 rpt rptt trans Ht stale stale') Hg Hk
    q aux q' aux' qbc0 auxbc0 auxbc0' (unsplit3_courant (with_mdt S d) Hg HF undef H3 rpt rptt trans stale)
    (unsplit3_courant_local (with_mdt S d) css Hg HF HD undef H3 rpt rptt trans stale') Sq Sx).
Qed.
Print Assumptions C147_run_3d.

(** Four by two cells on two processes. *)
Definition line4 (n : Z) (t : bctype) : dimbc := mkDim n t t t t true true 0.
Definition demo147 (t : bctype) : msettings := mkMSet 1 1 1 2 false 2 (fun _ => 4%Z)
  (fun d => match d with 0%nat => burgers | _ => advection (-(2)) end) (fun _ => advection_t 3) (fun _ => 1) (1 # 8) (Some 0%Z) [line4 4 t; line4 2 t] no_funs.
Definition cut147 : list (list (Z * Z)) := [[(0, 2); (2, 4)]; [(0, 2)]]%Z.
Definition data147 : arr Q := fun _ ix =>
  match ix with [0; 0]%Z => 1 | [1; 0]%Z => 3 | [2; 0]%Z => -(1) | [3; 0]%Z => 5 # 2 | [0; 1]%Z => 2 | [2; 1]%Z => 4 | _ => 0 end.
Definition demo147_3 : msettings := mkMSet 1 1 0 2 false 2 (fun _ => 4%Z)
  (fun d => advection (speeds d)) (fun _ => advection_t 3) (fun _ => 1) (1 # 8) None [line4 4 Periodic; line4 2 Extrap; line4 5 Wall] no_funs.
Definition cut147_3 : list (list (Z * Z)) := [[(0, 2); (2, 4)]; [(0, 2)]; [(0, 3); (3, 5)]]%Z.
Example C147_example :
  (forall t, In t [Extrap; Periodic; Wall] -> length (n_bcs (demo147 t)) = 2%nat /\ (2 <= n_ng (demo147 t))%nat /\
     Forall (fit_dim 2 true 1) (n_bcs (demo147 t)) /\ mdecomposed 2 (n_bcs (demo147 t)) cut147 /\ mcapa_in_aux (demo147 t)) /\
  mpasses (mpar_step (unsplit_kernel noundef 2) (demo147 Extrap) (combos cut147) data147 capa2 zero_arr) (fun p c =>
    negb (qeqb (p 0 [1; 0])%Z 3) && qltb 0 c)%bool = true /\
  (length (n_bcs demo147_3) = 3%nat /\ Forall (fit_dim 2 false 1) (n_bcs demo147_3) /\ mdecomposed 2 (n_bcs demo147_3) cut147_3 /\
   length (combos cut147_3) = 4%nat /\ described (n_order demo147_3) 22 /\ mcapa_in_aux demo147_3).
Proof.
  split; [|split].
  - intros t Ht. split; [reflexivity|]. split; [cbn; lia|]. split; [|split].
    + destruct Ht as [<-|[<-|[<-|[]]]]; (constructor; [|constructor; [|constructor]]);
      unfold fit_dim, standard, wide; cbn; intuition (auto; try discriminate; try lia).
    + constructor; [|constructor; [|constructor]]; (split; [cbn; lia|]; repeat constructor; cbn; lia).
    + intros k E. injection E as <-. cbn. lia.
  - vm_compute. reflexivity.
  - split; [reflexivity|]. split; [|split; [|split; [reflexivity|split]]].
    + constructor; [|constructor; [|constructor; [|constructor]]]; unfold fit_dim, standard, wide; cbn; intuition (auto; try discriminate; try lia).
    + constructor; [|constructor; [|constructor; [|constructor]]]; (split; [cbn; lia|]; repeat constructor; cbn; lia).
    + right. split; [cbn; auto|discriminate].
    + intros k E. discriminate E.
Qed.

(** ** C148: dimensional splitting.  The full property is C147's for split steps: *)
Definition split_step_parallel (S : msettings) : Prop :=
  forall undef css q aux qbc0 auxbc0 auxbc0',
  (2 <= n_ng S)%nat ->
  Forall (fit_dim (n_ng S) (Nat.ltb 0 (n_naux S)) (Z.of_nat (n_neq S))) (n_bcs S) -> mdecomposed (n_ng S) (n_bcs S) css -> mcapa_in_aux S ->
  match split_step undef S q aux qbc0 auxbc0, mpar_step (split_kernel undef) S (combos css) q aux auxbc0' with
  | MStepped q1 c1, MStepped q2 c2 =>
      (forall m ix, (0 <= m < Z.of_nat (n_neq S))%Z -> in_domain (n_bcs S) ix -> q2 m ix = q1 m ix) /\ c2 == c1
  | _, _ => False
  end.
(** Proved: the cells, in two dimensions and in three without limiters.  Missing: the Courant number, and limited steps in three
    dimensions, where the property fails. *)
Theorem C148_split_cells_partial :
  forall undef S css q aux qbc0 auxbc0 auxbc0',
  length (n_bcs S) = 2%nat \/ length (n_bcs S) = 3%nat /\ ~ limits S -> (2 <= n_ng S)%nat ->
  Forall (fit_dim (n_ng S) (Nat.ltb 0 (n_naux S)) (Z.of_nat (n_neq S))) (n_bcs S) -> mdecomposed (n_ng S) (n_bcs S) css -> mcapa_in_aux S ->
  match split_step undef S q aux qbc0 auxbc0, mpar_step (split_kernel undef) S (combos css) q aux auxbc0' with
  | MStepped q1 c1, MStepped q2 c2 => forall m ix, (0 <= m < Z.of_nat (n_neq S))%Z -> in_domain (n_bcs S) ix -> q2 m ix = q1 m ix
  | _, _ => False
  end.
Proof.
  intros undef S css q aux qbc0 auxbc0 auxbc0' HL Hg HF HD Hk.
  assert (Hr : (reach (n_nw S) (n_order S) (n_mthlim S) <= layers S)%Z).
  { destruct HL as [H2|[H3 HL]].
    - unfold layers. destruct (n_bcs S) as [|? [|? [|]]]; try discriminate H2. unfold reach. destruct (small_stencil _ _ _); lia.
    - replace (layers S) with 1%Z by (unfold layers; destruct (n_bcs S) as [|? [|? [|? [|]]]]; try discriminate H3; reflexivity).
      unfold reach. destruct (small_stencil (n_nw S) (n_order S) (n_mthlim S)) eqn:Es; [lia|]. apply small_stencil_spec in Es. contradiction. }
  destruct (mpar_all (split_kernel undef) (split_kernel undef) S css ltac:(lia) HF HD (split_parts S css Hg Hk undef ltac:(lia) Hr) q aux q aux qbc0 auxbc0 auxbc0'
    (fun m ix _ _ => eq_refl) (fun m ix _ _ => eq_refl)) as (qbc & auxbc & A & c & E1 & E2 & PA & _).
  change (split_step undef S q aux qbc0 auxbc0) with (mserial_step (split_kernel undef) S q aux qbc0 auxbc0). rewrite E1, E2. exact PA.
Qed.
Print Assumptions C148_split_cells_partial.
Example C148_example :
  ~ limits demo3u /\ mdecomposed 2 [per 4; per 2] cut147 /\
  mpasses (mpar_step (split_kernel noundef) (demo147 Periodic) (combos cut147) data147 capa2 zero_arr) (fun p c =>
    negb (qeqb (p 0 [1; 0])%Z 3) && qltb 0 c)%bool = true.
Proof.
  split; [intros (_ & mw & _ & H); cbn in H; lia|]. split; [|vm_compute; reflexivity].
  constructor; [|constructor; [|constructor]]; (split; [cbn; lia|]; repeat constructor; cbn; lia).
Qed.

(** Where two processes meet, the sweep in y also visits the ghost columns, which still hold the values before the sweep in x:
    the parallel Courant number is 1/2, the serial one 3/8. *)
Definition demo148 : msettings := mkMSet 1 1 0 2 false 1 (fun _ => 0%Z)
  (fun _ => burgers) (fun _ => no_rpt) (fun _ => 1) (1 # 8) None [line4 4 Extrap; line4 2 Extrap] no_funs.
Definition data148 : arr Q := fun _ ix => match ix with (1 :: _)%Z => 4 | _ => 0 end.
Theorem C148_courant_number_refuted :
  exists S undef css q aux qbc0 auxbc0 auxbc0',
  length (n_bcs S) = 2%nat /\ (2 <= n_ng S)%nat /\
  Forall (fit_dim (n_ng S) (Nat.ltb 0 (n_naux S)) (Z.of_nat (n_neq S))) (n_bcs S) /\ mdecomposed (n_ng S) (n_bcs S) css /\ mcapa_in_aux S /\
  mpasses (split_step undef S q aux qbc0 auxbc0) (fun _ c => Qeq_bool c (3 # 8)) = true /\
  mpasses (mpar_step (split_kernel undef) S (combos css) q aux auxbc0') (fun _ c => Qeq_bool c (1 # 2)) = true.
Proof.
  exists demo148, noundef, cut147, data148, zero_arr, zero_arr, zero_arr, zero_arr.
  split; [reflexivity|]. split; [cbn; lia|]. split; [|split; [|split; [|split]]].
  - constructor; [|constructor; [|constructor]]; unfold fit_dim, standard, wide; cbn; intuition (auto; try discriminate; try lia).
  - constructor; [|constructor; [|constructor]]; (split; [cbn; lia|]; repeat constructor; cbn; lia).
  - intros k E. discriminate E.
  - vm_compute. reflexivity.
  - vm_compute. reflexivity.
Qed.
Print Assumptions C148_courant_number_refuted.

(** In three dimensions the sweeps visit one layer of ghost cells but a limiter looks at two: the second layer holds the values
    before the earlier sweeps, which next to another process differ from the serial ones. *)
Definition demo148_3 : msettings := mkMSet 1 1 0 2 false 2 (fun _ => 1%Z)
  (fun d => match d with 2%nat => advection 0 | _ => advection 1 end) (fun _ => no_rpt) (fun _ => 1) (1 # 2) None [line4 2 Extrap; line4 4 Extrap; line4 2 Extrap] no_funs.
Definition cut148_3 : list (list (Z * Z)) := [[(0, 2)]; [(0, 2); (2, 4)]; [(0, 2)]]%Z.
Definition data148_3 : arr Q := fun _ ix => match ix with [0; 0; _]%Z => 4 | [1; 1; _]%Z => 2 | [1; 2; _]%Z => 6 | [0; 2; _]%Z => 6 | [0; 1; _]%Z => 2 | _ => 0 end.
Definition two_differ (r r' : mresult) (ix : list Z) : bool :=
  match r, r' with MStepped q1 _, MStepped q2 _ => negb (qeqb (q1 0%Z ix) (q2 0%Z ix)) | _, _ => false end.
Theorem C148_limited_3d_refuted :
  exists S undef css q aux qbc0 auxbc0 auxbc0' ix,
  length (n_bcs S) = 3%nat /\ limits S /\ (2 <= n_ng S)%nat /\
  Forall (fit_dim (n_ng S) (Nat.ltb 0 (n_naux S)) (Z.of_nat (n_neq S))) (n_bcs S) /\ mdecomposed (n_ng S) (n_bcs S) css /\ mcapa_in_aux S /\
  in_domain (n_bcs S) ix /\
  two_differ (split_step undef S q aux qbc0 auxbc0) (mpar_step (split_kernel undef) S (combos css) q aux auxbc0') ix = true.
Proof.
  exists demo148_3, noundef, cut148_3, data148_3, zero_arr, zero_arr, zero_arr, zero_arr, [1; 2; 0]%Z.
  split; [reflexivity|]. split; [split; [discriminate|exists 0%Z; cbn; lia]|]. split; [cbn; lia|]. split; [|split; [|split; [|split]]].
  - constructor; [|constructor; [|constructor; [|constructor]]]; unfold fit_dim, standard, wide; cbn; intuition (auto; try discriminate; try lia).
  - constructor; [|constructor; [|constructor; [|constructor]]]; (split; [cbn; lia|]; repeat constructor; cbn; lia).
  - intros k E. discriminate E.
  - repeat constructor; cbn; lia.
  - lazy. reflexivity.
Qed.
Print Assumptions C148_limited_3d_refuted.
