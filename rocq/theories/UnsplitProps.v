(** Properties of the unsplit two-dimensional classic solver (C34, C65, C66). *)
From Verif Require Import Base BCModel BCSpec BCProofs LimiterModel Classic1DModel Classic1DSpec Classic1DProofs Classic1DProps
  SweepModel SweepSpec SweepProofs SweepProofs2 SweepProofs3 SweepProps UnsplitModel UnsplitSpec UnsplitProofs UnsplitProofs2 UnsplitProofs3.

(** ** C34: unsplit steps conserve, whatever the transverse solver and the setting of transverse_waves *)
Theorem C34_unsplit_2d_conserves :
  forall undef S trans flux q aux qbc0 auxbc0,
  length (n_bcs S) = 2%nat -> (2 <= n_ng S)%nat -> Forall (periodic_dim (n_ng S)) (n_bcs S) ->
  mcapa_in_aux S -> all_conservative S flux ->
  (forall ix, in_domain (n_bcs S) ix -> ~ mcapacity S aux ix == 0) ->
  exists q' cfl, unsplit_step undef S trans q aux qbc0 auxbc0 = MStepped q' cfl /\
  forall m, (0 <= m < Z.of_nat (n_neq S))%Z -> mtotal S aux q' m == mtotal S aux q m.
Proof. exact unsplit_step_conserves. Qed.
Print Assumptions C34_unsplit_2d_conserves.

(** Transverse solver for advection: the fluctuation moves up or down with the velocity across. *)
Definition advection_t (v : Q) : rptsolver := fun _ _ _ _ _ dq =>
  (fun m => pymin v 0 * nth (Z.to_nat m) dq 0, fun m => pymax v 0 * nth (Z.to_nat m) dq 0).
Definition demo34 : msettings := mkMSet 1 1 1 2 false 2 (fun _ => 1%Z)
  (fun d => match d with 0%nat => advection 1 | _ => advection (-(2)) end)
  (fun d => match d with 0%nat => advection_t (-(2)) | _ => advection_t 1 end)
  (fun d => match d with 0%nat => 1 | _ => 2 end) (1 # 4) (Some 0%Z) [per 3; per 2] no_funs.
Definition total_is (r : mresult) (v : Q) : bool := mpasses r (fun q' _ => Qeq_bool (mtotal demo34 capa2 q' 0) v).
Definition value_at (r : mresult) (ix : list Z) : option Q := match r with MStepped q' _ => Some (Qred (q' 0%Z ix)) | _ => None end.
Example C34_example :
  length (n_bcs demo34) = 2%nat /\ (2 <= n_ng demo34)%nat /\ Forall (periodic_dim (n_ng demo34)) (n_bcs demo34) /\ mcapa_in_aux demo34 /\
  all_conservative demo34 (fun d => match d with 0%nat => fun u _ _ => 1 * hd 0 u | _ => fun u _ _ => -(2) * hd 0 u end) /\
  (forall ix, in_domain (n_bcs demo34) ix -> ~ mcapacity demo34 capa2 ix == 0) /\
  Qeq_bool (mtotal demo34 capa2 data2 0) (-(7)) = true /\
  forallb (fun trans => total_is (unsplit_step noundef demo34 trans data2 capa2 zero_arr zero_arr) (-(7))) [0; 1; 2]%Z = true /\
  map (fun trans => value_at (unsplit_step noundef demo34 trans data2 capa2 zero_arr zero_arr) [1; 1]%Z) [0; 1; 2]%Z <>
  [value_at (unsplit_step noundef demo34 0 data2 capa2 zero_arr zero_arr) [1; 1]%Z; value_at (unsplit_step noundef demo34 0 data2 capa2 zero_arr zero_arr) [1; 1]%Z;
   value_at (unsplit_step noundef demo34 2 data2 capa2 zero_arr zero_arr) [1; 1]%Z].
Proof.
  split; [reflexivity|]. split; [cbn; lia|]. split.
  { repeat constructor; cbn; lia. }
  split; [intros k E; injection E as <-; cbn; lia|]. split.
  { intros [|[|d]] Hd; [apply advection_conservative|apply advection_conservative|cbn in Hd; lia]. }
  split.
  { intros ix _. unfold mcapacity. cbn [demo34 n_capa]. unfold capa2. destruct ix as [|[|[]|] ?]; intros E; discriminate E. }
  split; [vm_compute; reflexivity|]. split; [vm_compute; reflexivity|]. vm_compute. discriminate.
Qed.

(** ** C65: data that does not vary in y *)
Theorem C65_unsplit_plane_data :
  forall pow undef S trans Dx Dy q aux q1 aux1 qbc0 auxbc0 qbc01 auxbc01 u c,
  n_bcs S = [Dx; Dy] -> (2 <= n_ng S)%nat -> mcapa_in_aux S ->
  fit_dim (n_ng S) (Nat.ltb 0 (n_naux S)) (Z.of_nat (n_neq S)) Dx -> flat_bc (n_ng S) Dy ->
  still (n_neq S) (n_nw S) (n_rpn S 1) -> splits_nothing (n_neq S) (n_rpt S 1) ->
  (forall m i j, (0 <= i < ncells Dx)%Z -> (0 <= j < ncells Dy)%Z -> q m [i; j] = q1 m [i] /\ aux m [i; j] = aux1 m [i]) ->
  step_hyperbolic pow undef Fortran (line_settings S 0 Dx) q1 aux1 qbc01 auxbc01 = Stepped u c ->
  exists q' c', unsplit_step undef S trans q aux qbc0 auxbc0 = MStepped q' c' /\
  forall m i j, (0 <= m < Z.of_nat (n_neq S))%Z -> (0 <= i < ncells Dx)%Z -> (0 <= j < ncells Dy)%Z -> q' m [i; j] == u m i.
Proof. exact unsplit_plane_data. Qed.
Print Assumptions C65_unsplit_plane_data.
Definition demo65 : msettings := mkMSet 1 1 0 2 false 2 (fun _ => 4%Z)
  (fun _ => burgers) (fun _ => advection_t 3) (fun _ => 1) (1 # 4) None [wall_dim; per 2] no_funs.
Example C65_example :
  fit_dim 2 false 1 wall_dim /\ flat_bc 2 (per 2) /\ still 1 1 burgers /\ splits_nothing 1 (n_rpt demo65 1) /\
  passes (step_hyperbolic nopow noundef Fortran (line_settings demo65 0 wall_dim) line63 zero_arr zero_arr zero_arr) (fun u c => negb (Qeq_bool (u 0 1)%Z 2)) = true /\
  value_at (unsplit_step noundef demo65 2 line63 zero_arr zero_arr zero_arr) [1; 1]%Z <> Some 2.
Proof.
  destruct C63_example as (A & B & C & D). split; [exact A|]. split; [exact B|]. split; [exact C|]. split.
  - intros imp ql qr al ar dq H m Hm. cbn [demo65 n_rpt advection_t fst snd]. replace (Z.to_nat m) with 0%nat by lia.
    destruct H as [|x dq Hx H]; cbn [nth]; [|rewrite Hx]; split; ring.
  - split; [exact D|]. vm_compute. discriminate.
Qed.

(** ** C66: the reported Courant number *)
Theorem C66_unsplit_courant_number :
  forall undef S trans q aux qbc0 auxbc0 qbc auxbc,
  (1 <= n_ng S)%nat -> Forall (fun D => 0 <= ncells D)%Z (n_bcs S) -> length (n_bcs S) = 2%nat ->
  apply_bcs Q Qopp (n_ng S) (Nat.ltb 0 (n_naux S)) (n_funs S) (Z.of_nat (n_neq S)) (n_bcs S) q aux qbc0 auxbc0 = Ok (qbc, auxbc) ->
  exists q' cfl, unsplit_step undef S trans q aux qbc0 auxbc0 = MStepped q' cfl /\ 0 <= cfl /\
  (forall d ix p v, (d < 2)%nat -> face1 S d ix -> (0 <= p < Z.of_nat (n_nw S))%Z -> crossed S d auxbc qbc ix p v -> v <= cfl) /\
  (cfl = 0 \/ exists d ix p, (d < 2)%nat /\ face1 S d ix /\ (0 <= p < Z.of_nat (n_nw S))%Z /\ crossed S d auxbc qbc ix p cfl).
Proof.
  intros undef S trans q aux qbc0 auxbc0 qbc auxbc Hg Hn HL E. unfold unsplit_step. rewrite E. cbv zeta. eexists. eexists. split; [reflexivity|].
  apply unsplit_cfl; auto. apply Forall_map. exact Hn.
Qed.
Print Assumptions C66_unsplit_courant_number.
Example C66_example :
  face1 demo34 1 [1; 4]%Z /\ mpasses (unsplit_step noundef demo34 2 data2 capa2 zero_arr zero_arr) (fun _ c => Qeq_bool c (1 # 4)) = true.
Proof.
  split; [|vm_compute; reflexivity]. split; [reflexivity|]. intros [|[|j]] Hj; cbn in *; lia.
Qed.
