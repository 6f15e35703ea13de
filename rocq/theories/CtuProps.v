(** Properties of two-dimensional steps: corner transport and exchanged axes (C130-C132). *)
From Verif Require Import Base BCModel BCSpec BCProofs LimiterModel Classic1DModel Classic1DSpec Classic1DProofs Classic1DProps
  SweepModel SweepSpec SweepProofs SweepProofs2 SweepProofs3 SweepProps UnsplitModel UnsplitSpec UnsplitProofs UnsplitProps
  CtuSpec CtuProofs CtuProofs2 CtuProofs3.

(** ** C130: an unsplit step is a step of the corner transport method *)
Theorem C130_corner_transport :
  forall pow undef S trans q aux qbc0 auxbc0 qbc auxbc Dx Dy m i j ux cx uy cy,
  n_bcs S = [Dx; Dy] -> (1 <= n_ng S)%nat -> (0 <= m < Z.of_nat (n_neq S))%Z -> (0 <= i < ncells Dx)%Z -> (0 <= j < ncells Dy)%Z ->
  apply_bcs Q Qopp (n_ng S) (Nat.ltb 0 (n_naux S)) (n_funs S) (Z.of_nat (n_neq S)) (n_bcs S) q aux qbc0 auxbc0 = Ok (qbc, auxbc) ->
  let a := (i + Z.of_nat (n_ng S))%Z in let b := (j + Z.of_nat (n_ng S))%Z in
  kernel pow undef Fortran (line_settings S 0 Dx) (fun c k => qbc c [k; b]) (fun c k => auxbc c [k; b]) = Some (ux, cx) ->
  kernel pow undef Fortran (line_settings S 1 Dy) (fun c k => qbc c [a; k]) (fun c k => auxbc c [a; k]) = Some (uy, cy) ->
  exists q' cfl, unsplit_step undef S trans q aux qbc0 auxbc0 = MStepped q' cfl /\
  q' m [i; j] == ux m a + uy m b - qbc m [a; b] +
    transverse_change undef S trans auxbc qbc 0 [a; b] m + transverse_change undef S trans auxbc qbc 1 [a; b] m.
Proof. exact corner_transport. Qed.
Print Assumptions C130_corner_transport.
Example C130_example :
  match apply_bcs Q Qopp 2 true no_funs 1 [per 3; per 2] data2 capa2 zero_arr zero_arr with
  | Ok (qbc, auxbc) =>
    (kpasses (kernel nopow noundef Fortran (line_settings demo34 0 (per 3)) (fun c k => qbc c [k; 3]%Z) (fun c k => auxbc c [k; 3]%Z)) (fun u _ => negb (Qeq_bool (u 0 3)%Z (-(5)))) &&
     kpasses (kernel nopow noundef Fortran (line_settings demo34 1 (per 2)) (fun c k => qbc c [3; k]%Z) (fun c k => auxbc c [3; k]%Z)) (fun u _ => negb (Qeq_bool (u 0 3)%Z (-(5)))) &&
     negb (Qeq_bool (transverse_change noundef demo34 2 auxbc qbc 0 [3; 3]%Z 0%Z) 0) &&
     negb (Qeq_bool (transverse_change noundef demo34 2 auxbc qbc 0 [4; 3]%Z 0%Z) (transverse_change noundef demo34 1 auxbc qbc 0 [4; 3]%Z 0%Z)))%bool
  | _ => false
  end = true.
Proof. vm_compute. reflexivity. Qed.

(** ** C131: the unsplit solver treats both axes alike *)
Theorem C131_axes_exchanged :
  forall undef S Dx Dy trans q aux qbc0 auxbc0 qbc1 auxbc1,
  n_bcs S = [Dx; Dy] -> (2 <= n_ng S)%nat -> mcapa_in_aux S ->
  fit_dim (n_ng S) (Nat.ltb 0 (n_naux S)) (Z.of_nat (n_neq S)) Dx -> fit_dim (n_ng S) (Nat.ltb 0 (n_naux S)) (Z.of_nat (n_neq S)) Dy ->
  exists q1 c1 q2 c2,
  unsplit_step undef S trans q aux qbc0 auxbc0 = MStepped q1 c1 /\
  unsplit_step undef (exchanged S) trans (transposed q) (transposed aux) qbc1 auxbc1 = MStepped q2 c2 /\
  c2 == c1 /\
  forall m i j, (0 <= m < Z.of_nat (n_neq S))%Z -> (0 <= i < ncells Dx)%Z -> (0 <= j < ncells Dy)%Z -> q2 m [j; i] == q1 m [i; j].
Proof. intros undef S Dx Dy trans q aux qbc0 auxbc0 qbc1 auxbc1 HB Hg Hk Fx Fy. exact (exchange undef S Dx Dy HB Hg Hk Fx Fy trans q aux qbc0 auxbc0 qbc1 auxbc1). Qed.
Print Assumptions C131_axes_exchanged.
Definition demo131 : msettings := mkMSet 1 1 1 2 false 2 (fun _ => 1%Z)
  (fun d => match d with 0%nat => advection 1 | _ => burgers end)
  (fun d => match d with 0%nat => advection_t (-(2)) | _ => advection_t 1 end)
  (fun d => match d with 0%nat => 1 | _ => 2 end) (1 # 4) (Some 0%Z) [wall_dim; per 2] no_funs.
Example C131_example :
  n_bcs demo131 = [wall_dim; per 2] /\ mcapa_in_aux demo131 /\ fit_dim 2 true 1 wall_dim /\ fit_dim 2 true 1 (per 2) /\
  value_at (unsplit_step noundef demo131 2 data2 capa2 zero_arr zero_arr) [1; 1]%Z <> Some (-(5)) /\
  value_at (unsplit_step noundef (exchanged demo131) 2 (transposed data2) (transposed capa2) zero_arr zero_arr) [1; 0]%Z =
  value_at (unsplit_step noundef demo131 2 data2 capa2 zero_arr zero_arr) [0; 1]%Z.
Proof.
  split; [reflexivity|]. split; [intros k E; injection E as <-; cbn; lia|].
  split; [unfold fit_dim, standard, wide; cbn; intuition (auto; try discriminate; try lia)|].
  split; [unfold fit_dim, standard, wide; cbn; intuition (auto; try discriminate; try lia)|].
  split; [vm_compute; discriminate|vm_compute; reflexivity].
Qed.

(** ** C132: dimensional splitting and exchanged axes *)
(** The split solver always sweeps along the first axis first, so exchanging the axes changes the result. *)
Definition demo132 : msettings := mkMSet 1 1 0 2 false 1 (fun _ => 1%Z)
  (fun _ => burgers) (fun _ => no_rpt) (fun _ => 1) (1 # 4) None [per 2; per 2] no_funs.
Definition data132 : arr Q := fun _ ix => match ix with (0 :: 0 :: _)%Z => 2 | _ => 1 end.
Theorem C132_split_order_refuted :
  exists undef S Dx Dy q aux qbc0 auxbc0 q1 c1 q2 c2,
  n_bcs S = [Dx; Dy] /\ (2 <= n_ng S)%nat /\ mcapa_in_aux S /\
  fit_dim (n_ng S) (Nat.ltb 0 (n_naux S)) (Z.of_nat (n_neq S)) Dx /\ fit_dim (n_ng S) (Nat.ltb 0 (n_naux S)) (Z.of_nat (n_neq S)) Dy /\
  split_step undef S q aux qbc0 auxbc0 = MStepped q1 c1 /\
  split_step undef (exchanged S) (transposed q) (transposed aux) qbc0 auxbc0 = MStepped q2 c2 /\
  ~ q2 0%Z [1; 0]%Z == q1 0%Z [0; 1]%Z.
Proof.
  exists noundef, demo132, (per 2), (per 2), data132, zero_arr, zero_arr, zero_arr.
  eexists. eexists. eexists. eexists. split; [reflexivity|]. split; [cbn; lia|]. split; [intros k E; discriminate E|].
  split; [unfold fit_dim, standard, wide; cbn; intuition (auto; try discriminate; try lia)|].
  split; [unfold fit_dim, standard, wide; cbn; intuition (auto; try discriminate; try lia)|].
  split; [reflexivity|]. split; [reflexivity|]. intro H. apply Qeq_bool_iff in H. vm_compute in H. discriminate H.
Qed.
Print Assumptions C132_split_order_refuted.
(** The exchanged problem is what sweeps in the other order give. *)
Theorem C132_sweeps_reversed_partial :
  forall undef S Dx Dy q aux qbc0 auxbc0 qbc1 auxbc1,
  n_bcs S = [Dx; Dy] -> (2 <= n_ng S)%nat -> mcapa_in_aux S ->
  fit_dim (n_ng S) (Nat.ltb 0 (n_naux S)) (Z.of_nat (n_neq S)) Dx -> fit_dim (n_ng S) (Nat.ltb 0 (n_naux S)) (Z.of_nat (n_neq S)) Dy ->
  exists qbc auxbc q2 c2,
  apply_bcs Q Qopp (n_ng S) (Nat.ltb 0 (n_naux S)) (n_funs S) (Z.of_nat (n_neq S)) (n_bcs S) q aux qbc0 auxbc0 = Ok (qbc, auxbc) /\
  split_step undef (exchanged S) (transposed q) (transposed aux) qbc1 auxbc1 = MStepped q2 c2 /\
  let along_y := fst (sweep undef S (layers S) false 1 auxbc qbc qbc) in
  let then_x := fst (sweep undef S (layers S) false 0 auxbc along_y along_y) in
  forall m i j, (0 <= m < Z.of_nat (n_neq S))%Z -> (0 <= i < ncells Dx)%Z -> (0 <= j < ncells Dy)%Z ->
  q2 m [j; i] = then_x m [(i + Z.of_nat (n_ng S))%Z; (j + Z.of_nat (n_ng S))%Z].
Proof. intros undef S Dx Dy q aux qbc0 auxbc0 qbc1 auxbc1 HB Hg Hk Fx Fy. exact (split_exchange undef S Dx Dy HB Hg Hk Fx Fy q aux qbc0 auxbc0 qbc1 auxbc1). Qed.
Print Assumptions C132_sweeps_reversed_partial.
Example C132_example :
  n_bcs demo132 = [per 2; per 2] /\ mcapa_in_aux demo132 /\ fit_dim 2 false 1 (per 2) /\
  value_at (split_step noundef (exchanged demo132) (transposed data132) zero_arr zero_arr zero_arr) [1; 0]%Z <> Some 1 /\
  value_at (split_step noundef (exchanged demo132) (transposed data132) zero_arr zero_arr zero_arr) [1; 0]%Z <>
  value_at (split_step noundef demo132 data132 zero_arr zero_arr zero_arr) [0; 1]%Z.
Proof.
  split; [reflexivity|]. split; [intros k E; discriminate E|].
  split; [unfold fit_dim, standard, wide; cbn; intuition (auto; try discriminate; try lia)|].
  split; vm_compute; discriminate.
Qed.
