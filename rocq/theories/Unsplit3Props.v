(** Properties of the unsplit three-dimensional classic solver (C93-C96). *)
From Verif Require Import Base BCModel BCSpec BCProofs LimiterModel Classic1DModel Classic1DSpec Classic1DProofs Classic1DProps
  SweepModel SweepSpec SweepProofs SweepProofs2 SweepProofs3 SweepProps UnsplitProps
  Unsplit3Model Unsplit3Spec Unsplit3Proofs Unsplit3Proofs2 Unsplit3Proofs3 Unsplit3Proofs4.

(** ** C93: unsplit steps conserve, whatever the transverse solvers *)
Theorem C93_unsplit_3d_conserves :
  forall undef S rpt rptt stale trans flux q aux qbc0 auxbc0,
  length (n_bcs S) = 3%nat -> (2 <= n_ng S)%nat -> described (n_order S) trans -> Forall (periodic_dim (n_ng S)) (n_bcs S) ->
  mcapa_in_aux S -> all_conservative S flux ->
  (forall ix, in_domain (n_bcs S) ix -> ~ mcapacity S aux ix == 0) ->
  exists q' cfl, unsplit3_step undef S rpt rptt stale trans q aux qbc0 auxbc0 = MStepped q' cfl /\
  forall m, (0 <= m < Z.of_nat (n_neq S))%Z -> mtotal S aux q' m == mtotal S aux q m.
Proof. exact unsplit3_step_conserves. Qed.
Print Assumptions C93_unsplit_3d_conserves.

(** Transverse solvers for advection: the fluctuation moves up or down with the velocity across. *)
Definition advection_t3 (v2 v3 : Q) : rpt3solver := fun icoor _ _ _ _ _ dq =>
  let v := if Z.eqb icoor 2 then v2 else v3 in
  (fun m => pymin v 0 * nth (Z.to_nat m) dq 0, fun m => pymax v 0 * nth (Z.to_nat m) dq 0).
Definition advection_tt3 (v2 v3 : Q) : rptt3solver := fun icoor imp _ => advection_t3 v2 v3 icoor imp.
Definition speeds (d : nat) : Q := match d with 0%nat => 1 | 1%nat => -(2) | _ => 3 end.
Definition demo93 (order : Z) : msettings := mkMSet 1 1 1 2 false order (fun _ => 0%Z)
  (fun d => advection (speeds d)) (fun _ _ _ _ _ _ _ => (fun _ => 0, fun _ => 0))
  (fun d => match d with 0%nat => 1 | _ => 2 end) (1 # 4) (Some 0%Z) [per 2; per 2; per 2] no_funs.
Definition rpt93 (d : nat) := advection_t3 (speeds (across1 d)) (speeds (across2 d)).
Definition rptt93 (d : nat) := advection_tt3 (speeds (across1 d)) (speeds (across2 d)).
Definition clean : nat -> list Z -> leftovers := fun _ _ => mkLeft (fun _ _ => 0) (fun _ _ _ _ _ => 0) (fun _ _ _ _ => 0).
Definition data93 : arr Q := fun _ ix => match ix with [0; 0; 1]%Z => 5 | [1; 0; 0]%Z => 2 | _ => 1 end.
Definition capa93 : arr Q := fun _ ix => match ix with (0 :: _)%Z => 2 | _ => 1 end.
Example C93_example :
  length (n_bcs (demo93 2)) = 3%nat /\ (2 <= n_ng (demo93 2))%nat /\ described (n_order (demo93 2)) 22 /\ described (n_order (demo93 1)) 11 /\
  Forall (periodic_dim (n_ng (demo93 2))) (n_bcs (demo93 2)) /\ mcapa_in_aux (demo93 2) /\
  all_conservative (demo93 2) (fun d u _ _ => speeds d * hd 0 u) /\
  (forall ix, in_domain (n_bcs (demo93 2)) ix -> ~ mcapacity (demo93 2) capa93 ix == 0) /\
  value_at (unsplit3_step noundef (demo93 2) rpt93 rptt93 clean 22 data93 capa93 zero_arr zero_arr) [1; 0; 1]%Z = Some (3245 # 2048).
Proof.
  split; [reflexivity|]. split; [cbn; lia|]. split; [right; split; [cbn; auto|discriminate]|]. split; [left; cbn; auto|]. split.
  { repeat constructor; cbn; lia. }
  split; [intros k E; injection E as <-; cbn; lia|]. split.
  { intros d Hd. apply advection_conservative. }
  split.
  { intros ix _. unfold mcapacity. cbn [demo93 n_capa]. unfold capa93. destruct ix as [|[|[]|] ?]; intros E; discriminate E. }
  vm_compute. reflexivity.
Qed.

(** ** C94: the reported Courant number *)
Theorem C94_unsplit_3d_courant_number :
  forall undef S rpt rptt stale trans q aux qbc0 auxbc0 qbc auxbc,
  (1 <= n_ng S)%nat -> Forall (fun D => 0 <= ncells D)%Z (n_bcs S) -> length (n_bcs S) = 3%nat ->
  apply_bcs Q Qopp (n_ng S) (Nat.ltb 0 (n_naux S)) (n_funs S) (Z.of_nat (n_neq S)) (n_bcs S) q aux qbc0 auxbc0 = Ok (qbc, auxbc) ->
  exists q' cfl, unsplit3_step undef S rpt rptt stale trans q aux qbc0 auxbc0 = MStepped q' cfl /\ 0 <= cfl /\
  (forall d ix p v, (d < 3)%nat -> face S d ix -> (0 <= p < Z.of_nat (n_nw S))%Z -> crossed S d auxbc qbc ix p v -> v <= cfl) /\
  (cfl = 0 \/ exists d ix p, (d < 3)%nat /\ face S d ix /\ (0 <= p < Z.of_nat (n_nw S))%Z /\ crossed S d auxbc qbc ix p cfl).
Proof.
  intros undef S rpt rptt stale trans q aux qbc0 auxbc0 qbc auxbc Hg Hn HL E. unfold unsplit3_step. rewrite E. cbv zeta. eexists. eexists. split; [reflexivity|].
  apply unsplit3_cfl; auto. apply Forall_map. exact Hn.
Qed.
Print Assumptions C94_unsplit_3d_courant_number.
Example C94_example :
  face (demo93 2) 1 [1; 4; 3]%Z /\ mpasses (unsplit3_step noundef (demo93 2) rpt93 rptt93 clean 22 data93 capa93 zero_arr zero_arr) (fun _ c => Qeq_bool c (3 # 8)) = true.
Proof.
  split; [|vm_compute; reflexivity]. split; [reflexivity|]. intros [|[|[|j]]] Hj; cbn in *; lia.
Qed.

(** ** C95: data that varies in x only *)
Theorem C95_unsplit_3d_plane_data :
  forall pow undef S rpt rptt stale trans Dx Dy Dz q aux q1 aux1 qbc0 auxbc0 qbc01 auxbc01 u c,
  n_bcs S = [Dx; Dy; Dz] -> (2 <= n_ng S)%nat -> described (n_order S) trans -> mcapa_in_aux S ->
  fit_dim (n_ng S) (Nat.ltb 0 (n_naux S)) (Z.of_nat (n_neq S)) Dx -> flat_bc (n_ng S) Dy -> flat_bc (n_ng S) Dz ->
  (forall d, d = 1%nat \/ d = 2%nat -> still (n_neq S) (n_nw S) (n_rpn S d) /\ splits_nothing3 (n_neq S) (rpt d) (rptt d)) ->
  (forall m i j k, (0 <= i < ncells Dx)%Z -> (0 <= j < ncells Dy)%Z -> (0 <= k < ncells Dz)%Z -> q m [i; j; k] = q1 m [i] /\ aux m [i; j; k] = aux1 m [i]) ->
  step_hyperbolic pow undef Fortran (line_settings S 0 Dx) q1 aux1 qbc01 auxbc01 = Stepped u c ->
  exists q' c', unsplit3_step undef S rpt rptt stale trans q aux qbc0 auxbc0 = MStepped q' c' /\
  forall m i j k, (0 <= m < Z.of_nat (n_neq S))%Z -> (0 <= i < ncells Dx)%Z -> (0 <= j < ncells Dy)%Z -> (0 <= k < ncells Dz)%Z ->
  q' m [i; j; k] == u m i.
Proof. exact unsplit3_plane_data. Qed.
Print Assumptions C95_unsplit_3d_plane_data.
Definition thin : dimbc := mkDim 1 Extrap Extrap Extrap Extrap true true 0.
Definition demo95 : msettings := mkMSet 1 1 0 2 false 2 (fun _ => 0%Z)
  (fun _ => burgers) (fun _ _ _ _ _ _ _ => (fun _ => 0, fun _ => 0)) (fun _ => 1) (1 # 4) None [wall_dim; thin; thin] no_funs.
Lemma advection_splits_nothing v2 v3 : splits_nothing3 1 (advection_t3 v2 v3) (advection_tt3 v2 v3).
Proof.
  intros icoor imp impt ql qr al ar dq H m Hm. unfold advection_tt3, advection_t3. cbn [fst snd]. replace (Z.to_nat m) with 0%nat by lia.
  destruct H as [|x dq Hx H]; cbn [nth]; [|rewrite Hx]; repeat split; ring.
Qed.
Example C95_example :
  fit_dim 2 false 1 wall_dim /\ flat_bc 2 thin /\ still 1 1 burgers /\ (forall d, splits_nothing3 1 (rpt93 d) (rptt93 d)) /\
  passes (step_hyperbolic nopow noundef Fortran (line_settings demo95 0 wall_dim) line63 zero_arr zero_arr zero_arr) (fun u c => negb (Qeq_bool (u 0 1)%Z 2)) = true /\
  value_at (unsplit3_step noundef demo95 rpt93 rptt93 clean 22 line63 zero_arr zero_arr zero_arr) [1; 0; 0]%Z <> Some 2.
Proof.
  destruct C63_example as (A & B & C & D). split; [exact A|]. split.
  { split; [reflexivity|]. split; [reflexivity|]. split; [cbn; lia|]. intros t [<-|[<-|[<-|[<-|[]]]]]; left; reflexivity. }
  split; [exact C|]. split; [intros d; apply advection_splits_nothing|]. split; [vm_compute; reflexivity|]. vm_compute. discriminate.
Qed.

(** ** C96: what the work arrays held before does not matter *)
Theorem C96_no_leftovers_partial :
  forall undef S rpt rptt stale stale' trans q aux qbc0 auxbc0,
  described (n_order S) trans ->
  match unsplit3_step undef S rpt rptt stale trans q aux qbc0 auxbc0, unsplit3_step undef S rpt rptt stale' trans q aux qbc0 auxbc0 with
  | MStepped q' c', MStepped q'' c'' => (forall m ix, q' m ix = q'' m ix) /\ c' = c''
  | MBCError e, MBCError e' => e = e'
  | _, _ => False
  end.
Proof.
  intros undef S rpt rptt stale stale' trans q aux qbc0 auxbc0 HD. unfold unsplit3_step.
  destruct (apply_bcs _ _ _ _ _ _ _ _ _ _ _) as [[qbc auxbc]|e]; [|reflexivity]. cbv zeta.
  destruct (step3_stale undef S rpt rptt stale stale' trans HD auxbc qbc) as [A B]. split; [|exact B].
  intros m ix. unfold set_q_from_qbc. apply A.
Qed.
Print Assumptions C96_no_leftovers_partial.
(** Missing: first order with transverse_waves = trans_cor, the default.  The correction wave is not computed and the
    array that would hold it is split all the same. *)
Definition demo96 : msettings := mkMSet 1 1 0 2 false 1 (fun _ => 0%Z)
  (fun d => advection (speeds d)) (fun _ _ _ _ _ _ _ => (fun _ => 0, fun _ => 0)) (fun _ => 1) (1 # 4) None [thin; thin; thin] no_funs.
(** A number left over in the work array when the slice through the cell is computed *)
Definition dirty : nat -> list Z -> leftovers := fun d b =>
  if (Nat.eqb d 0 && zlist_eqb b [0; 2; 2]%Z)%bool then mkLeft (fun _ i => inject_Z i) (fun _ _ _ _ _ => 0) (fun _ _ _ _ => 0) else clean d b.
Definition differ (r r' : mresult) : bool :=
  match r, r' with MStepped q' _, MStepped q'' _ => negb (Qeq_bool (q' 0 [0; 0; 0])%Z (q'' 0 [0; 0; 0])%Z) | _, _ => false end.
Lemma differ_spec r r' : differ r r' = true ->
  match r, r' with MStepped q' c', MStepped q'' c'' => ~ q' 0%Z [0; 0; 0]%Z == q'' 0%Z [0; 0; 0]%Z | _, _ => False end.
Proof. destruct r as [q' c'|]; destruct r' as [q'' c''|]; try discriminate. cbn [differ]. intros K. apply Qeq_bool_neq. apply negb_true_iff. exact K. Qed.
Theorem C96_first_order_refuted :
  exists undef S rpt rptt stale stale' trans q aux qbc0 auxbc0,
  n_order S = 1%Z /\ trans = 22%Z /\
  match unsplit3_step undef S rpt rptt stale trans q aux qbc0 auxbc0, unsplit3_step undef S rpt rptt stale' trans q aux qbc0 auxbc0 with
  | MStepped q' c', MStepped q'' c'' => ~ q' 0%Z [0; 0; 0]%Z == q'' 0%Z [0; 0; 0]%Z
  | _, _ => False
  end.
Proof.
  exists noundef, demo96, rpt93, rptt93, clean, dirty, 22%Z, zero_arr, zero_arr, zero_arr, zero_arr. split; [reflexivity|]. split; [reflexivity|].
  assert (K : differ (unsplit3_step noundef demo96 rpt93 rptt93 clean 22 zero_arr zero_arr zero_arr zero_arr)
    (unsplit3_step noundef demo96 rpt93 rptt93 dirty 22 zero_arr zero_arr zero_arr zero_arr) = true) by (vm_compute; reflexivity).
  exact (differ_spec _ _ K).
Qed.
Print Assumptions C96_first_order_refuted.
Example C96_example : described (n_order (demo93 2)) 22 /\ clean 0%nat [0; 2; 2]%Z <> dirty 0%nat [0; 2; 2]%Z.
Proof.
  split; [right; split; [cbn; auto|discriminate]|]. intros E. apply (f_equal (fun l => Qnum (l_cqxx l 0 1)%Z)) in E. discriminate E.
Qed.
