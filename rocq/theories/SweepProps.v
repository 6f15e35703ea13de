(** Properties of the dimensionally split classic solvers in two and three dimensions (C33, C61-C64). *)
From Verif Require Import Base BCModel BCSpec BCProofs LimiterModel Classic1DModel Classic1DSpec Classic1DProofs Classic1DProps
  SweepModel SweepSpec SweepProofs SweepProofs2 SweepProofs3 SweepProofs4 SweepProofs5 SweepProofs6.

(** ** C33: two-dimensional split steps conserve *)
Theorem C33_split_2d_conserves :
  forall undef S flux q aux qbc0 auxbc0,
  length (n_bcs S) = 2%nat -> (2 <= n_ng S)%nat -> Forall (periodic_dim (n_ng S)) (n_bcs S) ->
  mcapa_in_aux S -> all_conservative S flux ->
  (forall ix, in_domain (n_bcs S) ix -> ~ mcapacity S aux ix == 0) ->
  exists q' cfl, split_step undef S q aux qbc0 auxbc0 = MStepped q' cfl /\
  forall m, (0 <= m < Z.of_nat (n_neq S))%Z -> mtotal S aux q' m == mtotal S aux q m.
Proof.
  intros undef S flux q aux qbc0 auxbc0 HL Hg HP Hk HC HK. apply (split_step_conserves undef S flux); auto; try lia.
  unfold layers. destruct (n_bcs S) as [|D1 [|D2 [|D3 l]]]; try discriminate HL. unfold reach. destruct (small_stencil _ _ _); lia.
Qed.
Print Assumptions C33_split_2d_conserves.

(** Reading and writing one array in the second and third sweep is harmless. *)
Theorem C33_one_array_is_enough :
  forall undef S auxbc qbc, (1 <= n_ng S)%nat -> Forall (fun D => 0 <= ncells D)%Z (n_bcs S) -> (1 <= length (n_bcs S))%nat ->
  let separate := separate_sweeps undef S (length (n_bcs S) - 1) 1 auxbc (sweep undef S (layers S) false 0 auxbc qbc qbc) in
  snd (split_sweeps undef S auxbc qbc) = snd separate /\
  forall m ix, (0 <= m < Z.of_nat (n_neq S))%Z -> fst (split_sweeps undef S auxbc qbc) m ix = fst separate m ix.
Proof.
  intros undef S auxbc qbc Hg Hn HL. cbv zeta. unfold split_sweeps.
  assert (Hn' : Forall (fun n => 0 <= n)%Z (map ncells (n_bcs S))) by (apply Forall_map; exact Hn).
  destruct (sweep undef S (layers S) false 0 auxbc qbc qbc) as [x c].
  destruct (in_place_sweeps undef S Hg Hn' auxbc (length (n_bcs S) - 1) 1 x x c ltac:(lia)) as [A B]; [intros m ix Hm; reflexivity|].
  split; [exact B|]. intros m ix Hm. exact (A m ix Hm).
Qed.
Print Assumptions C33_one_array_is_enough.

Lemma advection_conservative v : conservative 1 (fun u _ _ => v * hd 0 u) (advection v).
Proof.
  intros ql qr al ar m _. unfold advection. cbn [o_am o_ap]. rewrite <- Qmult_plus_distr_l.
  assert (E : pymin v 0 + pymax v 0 == v) by (unfold pymin, pymax; qcase_lt 0 v H1; qcase_lt v 0 H2; lra). rewrite E. ring.
Qed.
(** A case that meets the hypotheses: advection in x, Burgers in y, limited, with a capacity function. *)
Definition per (n : Z) : dimbc := mkDim n Periodic Periodic Periodic Periodic true true 0.
Definition no_funs := mkFuns Q None None None None.
Definition demo2 : msettings := mkMSet 1 1 1 2 false 2 (fun _ => 1%Z)
  (fun d => match d with 0%nat => advection 1 | _ => burgers end) (fun _ => no_rpt) (fun d => match d with 0%nat => 1 | _ => 2 end) (1 # 4) (Some 0%Z)
  [per 3; per 2] no_funs.
Definition data2 : arr Q := fun _ ix => match ix with (0 :: 0 :: _)%Z => 1 | (0 :: 1 :: _)%Z => 2 | (1 :: 1 :: _)%Z => -(5) | _ => 0 end.
Definition capa2 : arr Q := fun _ ix => match ix with (1 :: _)%Z => 2 | _ => 1 end.
Definition mpasses (r : mresult) (test : arr Q -> Q -> bool) : bool := match r with MStepped q' c => test q' c | _ => false end.
Example C33_example :
  length (n_bcs demo2) = 2%nat /\ (2 <= n_ng demo2)%nat /\ Forall (periodic_dim (n_ng demo2)) (n_bcs demo2) /\ mcapa_in_aux demo2 /\
  all_conservative demo2 (fun d => match d with 0%nat => fun u _ _ => 1 * hd 0 u | _ => burgers_flux end) /\
  (forall ix, in_domain (n_bcs demo2) ix -> ~ mcapacity demo2 capa2 ix == 0) /\
  mpasses (split_step noundef demo2 data2 capa2 zero_arr zero_arr) (fun q' c =>
    (Qeq_bool (mtotal demo2 capa2 data2 0) (-(7)) && Qeq_bool (mtotal demo2 capa2 q' 0) (-(7)) && negb (Qeq_bool (q' 0 [1;1])%Z (-(5))) && Qle_bool (1 # 4) c)%bool) = true.
Proof.
  split; [reflexivity|]. split; [cbn; lia|]. split.
  { repeat constructor; cbn; lia. }
  split; [intros k E; injection E as <-; cbn; lia|]. split.
  { intros [|[|d]] Hd; [| |cbn in Hd; lia].
    - apply advection_conservative.
    - apply burgers_conservative. }
  split.
  { intros ix _. unfold mcapacity. cbn [demo2 n_capa]. unfold capa2. destruct ix as [|[|[]|] ?]; intros E; discriminate E. }
  vm_compute. reflexivity.
Qed.

(** ** C61: three-dimensional split steps *)
(** The full property: periodic grids of any number of dimensions.  It fails in three dimensions, because the sweeps cover only one
    layer of ghost cells in the other dimensions while a limiter looks two cells away. *)
Definition split_conserves (S : msettings) : Prop :=
  forall undef flux q aux qbc0 auxbc0,
  (2 <= n_ng S)%nat -> Forall (periodic_dim (n_ng S)) (n_bcs S) -> mcapa_in_aux S -> all_conservative S flux ->
  (forall ix, in_domain (n_bcs S) ix -> ~ mcapacity S aux ix == 0) ->
  exists q' cfl, split_step undef S q aux qbc0 auxbc0 = MStepped q' cfl /\
  forall m, (0 <= m < Z.of_nat (n_neq S))%Z -> mtotal S aux q' m == mtotal S aux q m.

Theorem C61_split_3d_conserves_partial :
  forall S, length (n_bcs S) = 3%nat -> ~ limits S -> split_conserves S.
Proof.
  intros S HL HN undef flux q aux qbc0 auxbc0 Hg HP Hk HC HK. apply (split_step_conserves undef S flux); auto; try lia.
  unfold layers. destruct (n_bcs S) as [|D1 [|D2 [|D3 [|D4 l]]]]; try discriminate HL. unfold reach.
  destruct (small_stencil (n_nw S) (n_order S) (n_mthlim S)) eqn:E; [lia|]. apply small_stencil_spec in E. contradiction.
Qed.
Print Assumptions C61_split_3d_conserves_partial.

(** Uniform flow along the diagonal of the x-y plane, nothing happening in z, minmod limiter. *)
Definition idle : rpsolver := fun _ _ _ _ => mkOut (fun _ _ => 0) (fun _ => 0) (fun _ => 0) (fun _ => 0).
Definition demo3 : msettings := mkMSet 1 1 0 2 false 2 (fun _ => 1%Z)
  (fun d => match d with 2%nat => idle | _ => advection 1 end) (fun _ => no_rpt) (fun _ => 1) (1 # 2) None
  [per 3; per 4; per 2] no_funs.
Definition data3 : arr Q := fun _ ix =>
  match ix with (0 :: 0 :: _)%Z => 1 | (0 :: 1 :: _)%Z => 2 | (1 :: 2 :: _)%Z => 5 | (0 :: 3 :: _)%Z => 7 | _ => 0 end.
(** The total after the first two sweeps *)
Definition two_sweeps (S : msettings) (q aux qbc0 auxbc0 : arr Q) (m : Z) : Q :=
  match apply_bcs Q Qopp (n_ng S) (Nat.ltb 0 (n_naux S)) (n_funs S) (Z.of_nat (n_neq S)) (n_bcs S) q aux qbc0 auxbc0 with
  | Ok (qbc, auxbc) =>
      let r1 := sweep noundef S (layers S) false 0 auxbc qbc qbc in
      let r2 := sweep noundef S (layers S) true 1 auxbc (fst r1) (fst r1) in
      mtotal S aux (set_q_from_qbc Q (n_ng S) (fst r2)) m
  | Raised _ => 0
  end.
Lemma two_sweeps_total S q aux qbc0 auxbc0 m q' c :
  (1 <= n_ng S)%nat -> Forall (fun D => 0 <= ncells D)%Z (n_bcs S) -> length (n_bcs S) = 3%nat -> (0 <= m < Z.of_nat (n_neq S))%Z ->
  n_rpn S 2 = idle -> split_step noundef S q aux qbc0 auxbc0 = MStepped q' c ->
  mtotal S aux q' m == two_sweeps S q aux qbc0 auxbc0 m.
Proof.
  intros Hg Hn HL Hm HI E. assert (Hn' : Forall (fun n => 0 <= n)%Z (map ncells (n_bcs S))) by (apply Forall_map; exact Hn).
  unfold split_step in E. unfold two_sweeps. destruct (apply_bcs _ _ _ _ _ _ _ _ _ _ _) as [[qbc auxbc]|e]; [|discriminate E].
  cbv zeta in E |- *. injection E as <- _. unfold mtotal. apply boxsum_eq. intros ix _ _. unfold set_q_from_qbc, split_sweeps. rewrite HL.
  cbn [Nat.sub more_sweeps fst]. rewrite (sweep_idle noundef S Hg Hn'); [reflexivity|lia|exact Hm|].
  intros. rewrite HI. repeat split; reflexivity.
Qed.
Theorem C61_split_3d_conserves_refuted :
  exists S, length (n_bcs S) = 3%nat /\ limits S /\ ~ split_conserves S.
Proof.
  exists demo3. split; [reflexivity|]. split.
  { split; [discriminate|]. exists 0%Z. cbn. lia. }
  intros H. destruct (H noundef (fun d => match d with 2%nat => fun _ _ _ => 0 | _ => fun u _ _ => 1 * hd 0 u end) data3 zero_arr zero_arr zero_arr) as (q' & c & E & T).
  - cbn. lia.
  - repeat constructor; cbn; lia.
  - intros k E. discriminate E.
  - intros [|[|[|d]]] Hd; [apply advection_conservative|apply advection_conservative| |cbn in Hd; lia]; intros ql qr al ar m Hm; reflexivity.
  - intros ix _ E. discriminate E.
  - specialize (T 0%Z ltac:(cbn; lia)).
    assert (T0 : mtotal demo3 zero_arr data3 0 == 30) by (apply Qeq_bool_eq; vm_compute; reflexivity).
    assert (T2 : two_sweeps demo3 data3 zero_arr zero_arr zero_arr 0 == 237 # 8) by (apply Qeq_bool_eq; vm_compute; reflexivity).
    apply two_sweeps_total with (m := 0%Z) in E; [|cbn; lia|repeat constructor; cbn; lia|reflexivity|cbn; lia|reflexivity].
    rewrite E, T0, T2 in T. discriminate T.
Qed.
Print Assumptions C61_split_3d_conserves_refuted.
Definition demo3u : msettings := mkMSet 1 1 0 2 false 2 (fun _ => 0%Z)
  (fun d => match d with 0%nat => advection 1 | _ => burgers end) (fun _ => no_rpt) (fun _ => 1) (1 # 2) None [per 2; per 3; per 2] no_funs.
Example C61_example :
  length (n_bcs demo3u) = 3%nat /\ ~ limits demo3u /\ n_order demo3u = 2%Z /\ (2 <= n_ng demo3u)%nat /\ Forall (periodic_dim (n_ng demo3u)) (n_bcs demo3u) /\
  all_conservative demo3u (fun d => match d with 0%nat => fun u _ _ => 1 * hd 0 u | _ => burgers_flux end).
Proof.
  split; [reflexivity|]. split.
  { intros (_ & mw & _ & H). cbn in H. lia. }
  split; [reflexivity|]. split; [cbn; lia|]. split; [repeat constructor; cbn; lia|].
  intros [|d] Hd; [apply advection_conservative|apply burgers_conservative].
Qed.

(** ** C62: a sweep is the one-dimensional solver on every slice, and touches nothing else *)
Theorem C62_sweeps_are_1d_steps :
  forall pow undef S d alias auxbc q m,
  (1 <= n_ng S)%nat -> Forall (fun D => 0 <= ncells D)%Z (n_bcs S) -> (d < length (n_bcs S))%nat -> (0 <= m < Z.of_nat (n_neq S))%Z ->
  let swept := fst (sweep undef S (layers S) alias d auxbc q q) in
  (forall ix D q1 c1, visited S d ix -> ncells D = nth d (map ncells (n_bcs S)) 0%Z ->
     kernel pow undef Fortran (line_settings S d D) (fun c i => q c (put d i ix)) (fun c i => auxbc c (put d i ix)) = Some (q1, c1) ->
     swept m ix == q1 m (get d ix)) /\
  (forall ix, length ix = length (n_bcs S) -> ~ visited S d ix -> swept m ix = q m ix).
Proof.
  intros pow undef S d alias auxbc q m Hg Hn Hd Hm. cbv zeta.
  assert (Hn' : Forall (fun n => 0 <= n)%Z (map ncells (n_bcs S))) by (apply Forall_map; exact Hn).
  split.
  - intros ix D q1 c1 HV HD HK. exact (sweep_1d pow undef S Hg Hn' d alias auxbc q m ix D q1 c1 Hd HV HD Hm HK).
  - intros ix HL HV. destruct (sweep_at undef S Hg Hn' (layers S) alias d auxbc q (layers_nonneg S) Hd) as [A _]. rewrite A by exact Hm.
    unfold sweep_value. destruct (SweepProofs2.swept S (layers S) d ix) eqn:E; [|reflexivity]. destruct HV. apply (visited_swept S Hg Hn' d ix Hd).
    rewrite map_length. split; [exact HL|exact E].
Qed.
Print Assumptions C62_sweeps_are_1d_steps.
(** The kernel accepts every slice unless a capacity is not positive. *)
Example C62_example :
  visited demo2 1 [3; 2]%Z /\ ~ visited demo2 1 [3; 1]%Z /\
  match apply_bcs Q Qopp 2 true no_funs 1 (n_bcs demo2) data2 capa2 zero_arr zero_arr with
  | Ok (qbc, auxbc) =>
      match kernel nopow noundef Fortran (line_settings demo2 1 (per 2)) (fun c i => qbc c (put 1 i [3; 2]%Z)) (fun c i => auxbc c (put 1 i [3; 2]%Z)) with
      | Some (q1, c1) => (negb (Qeq_bool (q1 0 3)%Z (qbc 0 [3; 3])%Z) && Qeq_bool (q1 0 3)%Z (fst (sweep noundef demo2 2 true 1 auxbc qbc qbc) 0 [3; 3])%Z)%bool
      | None => false
      end
  | Raised _ => false
  end = true.
Proof.
  split; [|split].
  - split; [reflexivity|]. intros [|[|j]] Hj; cbn in *; lia.
  - intros [_ H]. specialize (H 1%nat ltac:(cbn; lia)). cbn in H. lia.
  - vm_compute. reflexivity.
Qed.

(** ** C63: data that does not vary in y *)
Theorem C63_plane_data :
  forall pow undef S Dx Dy q aux q1 aux1 qbc0 auxbc0 qbc01 auxbc01 u c,
  n_bcs S = [Dx; Dy] -> (2 <= n_ng S)%nat -> mcapa_in_aux S ->
  fit_dim (n_ng S) (Nat.ltb 0 (n_naux S)) (Z.of_nat (n_neq S)) Dx -> flat_bc (n_ng S) Dy ->
  still (n_neq S) (n_nw S) (n_rpn S 1) ->
  (forall m i j, (0 <= i < ncells Dx)%Z -> (0 <= j < ncells Dy)%Z -> q m [i; j] = q1 m [i] /\ aux m [i; j] = aux1 m [i]) ->
  step_hyperbolic pow undef Fortran (line_settings S 0 Dx) q1 aux1 qbc01 auxbc01 = Stepped u c ->
  exists q' c', split_step undef S q aux qbc0 auxbc0 = MStepped q' c' /\
  forall m i j, (0 <= m < Z.of_nat (n_neq S))%Z -> (0 <= i < ncells Dx)%Z -> (0 <= j < ncells Dy)%Z -> q' m [i; j] == u m i.
Proof. exact plane_data. Qed.
Print Assumptions C63_plane_data.
Definition wall_dim : dimbc := mkDim 3 Wall Extrap Extrap Extrap true true 0.
Definition demo63 : msettings := mkMSet 1 1 0 2 false 2 (fun _ => 4%Z)
  (fun _ => burgers) (fun _ => no_rpt) (fun _ => 1) (1 # 4) None [wall_dim; per 2] no_funs.
Definition line63 : arr Q := fun _ ix => match ix with (0 :: _)%Z => 1 | (1 :: _)%Z => 2 | _ => -(1) end.
Example C63_example :
  fit_dim 2 false 1 wall_dim /\ flat_bc 2 (per 2) /\ still 1 1 burgers /\
  passes (step_hyperbolic nopow noundef Fortran (line_settings demo63 0 wall_dim) line63 zero_arr zero_arr zero_arr) (fun u c => negb (Qeq_bool (u 0 1)%Z 2)) = true.
Proof.
  split; [|split; [|split]].
  - unfold fit_dim, standard, wide. cbn. repeat split; auto; intros; try lia; discriminate.
  - unfold flat_bc. cbn. repeat split; auto; try lia. intros t Ht. right. repeat (destruct Ht as [<- | Ht]; [split; [reflexivity|lia]|]). destruct Ht.
  - intros u a m Hm. replace m with 0%Z by lia. cbn. repeat split; try (intros); ring.
  - vm_compute. reflexivity.
Qed.

(** ** C64: the reported Courant number *)
Theorem C64_courant_number :
  forall undef S q aux qbc0 auxbc0 qbc auxbc,
  (1 <= n_ng S)%nat -> Forall (fun D => 0 <= ncells D)%Z (n_bcs S) -> (1 <= length (n_bcs S))%nat ->
  apply_bcs Q Qopp (n_ng S) (Nat.ltb 0 (n_naux S)) (n_funs S) (Z.of_nat (n_neq S)) (n_bcs S) q aux qbc0 auxbc0 = Ok (qbc, auxbc) ->
  exists q' cfl, split_step undef S q aux qbc0 auxbc0 = MStepped q' cfl /\ 0 <= cfl /\
  (forall d ix p v, (d < length (n_bcs S))%nat -> face S d ix -> (0 <= p < Z.of_nat (n_nw S))%Z ->
     crossed S d auxbc (before undef S auxbc qbc d) ix p v -> v <= cfl) /\
  (cfl = 0 \/ exists d ix p, (d < length (n_bcs S))%nat /\ face S d ix /\ (0 <= p < Z.of_nat (n_nw S))%Z /\
     crossed S d auxbc (before undef S auxbc qbc d) ix p cfl).
Proof.
  intros undef S q aux qbc0 auxbc0 qbc auxbc Hg Hn HL E. unfold split_step. rewrite E. cbv zeta. eexists. eexists. split; [reflexivity|].
  apply split_cfl; auto. apply Forall_map. exact Hn.
Qed.
Print Assumptions C64_courant_number.
Example C64_example :
  face demo2 1 [1; 4]%Z /\
  mpasses (split_step noundef demo2 data2 capa2 zero_arr zero_arr) (fun _ c => negb (Qle_bool c 0)) = true.
Proof.
  split; [|vm_compute; reflexivity]. split; [reflexivity|]. intros [|[|j]] Hj; cbn in *; lia.
Qed.
