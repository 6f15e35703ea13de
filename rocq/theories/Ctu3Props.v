(** Properties of unsplit three-dimensional steps, cell by cell and face by face (C145), and with the axes in another order (C146). *)
From Verif Require Import Base BCModel BCSpec BCProofs LimiterModel Classic1DModel Classic1DSpec Classic1DProofs Classic1DProps
  SweepModel SweepSpec SweepProofs SweepProofs2 SweepProofs3 SweepProps UnsplitProps
  Unsplit3Model Unsplit3Spec Unsplit3Proofs Unsplit3Proofs2 Unsplit3Props CtuSpec Ctu3Spec Ctu3Proofs Ctu3Proofs2 Ctu3Proofs3.

(** ** C145: an unsplit step in three dimensions is one-dimensional steps plus fluxes through the faces across *)
Theorem C145_corner_transport_3d :
  forall pow undef S rpt rptt stale trans q aux qbc0 auxbc0 qbc auxbc Dx Dy Dz m i j k ux cx uy cy uz cz,
  n_bcs S = [Dx; Dy; Dz] -> (1 <= n_ng S)%nat -> described (n_order S) trans ->
  (0 <= m < Z.of_nat (n_neq S))%Z -> (0 <= i < ncells Dx)%Z -> (0 <= j < ncells Dy)%Z -> (0 <= k < ncells Dz)%Z ->
  apply_bcs Q Qopp (n_ng S) (Nat.ltb 0 (n_naux S)) (n_funs S) (Z.of_nat (n_neq S)) (n_bcs S) q aux qbc0 auxbc0 = Ok (qbc, auxbc) ->
  let a := (i + Z.of_nat (n_ng S))%Z in let b := (j + Z.of_nat (n_ng S))%Z in let c := (k + Z.of_nat (n_ng S))%Z in
  kernel pow undef Fortran (line_settings S 0 Dx) (fun n e => qbc n [e; b; c]) (fun n e => auxbc n [e; b; c]) = Some (ux, cx) ->
  kernel pow undef Fortran (line_settings S 1 Dy) (fun n e => qbc n [a; e; c]) (fun n e => auxbc n [a; e; c]) = Some (uy, cy) ->
  kernel pow undef Fortran (line_settings S 2 Dz) (fun n e => qbc n [a; b; e]) (fun n e => auxbc n [a; b; e]) = Some (uz, cz) ->
  let change d := across_change undef S rpt rptt trans auxbc qbc d 2 [a; b; c] m + across_change undef S rpt rptt trans auxbc qbc d 3 [a; b; c] m in
  exists q' cfl, unsplit3_step undef S rpt rptt stale trans q aux qbc0 auxbc0 = MStepped q' cfl /\
  q' m [i; j; k] == ux m a + uy m b + uz m c - 2 * qbc m [a; b; c] + (change 0%nat + change 1%nat + change 2%nat).
Proof. exact corner_transport3. Qed.
Print Assumptions C145_corner_transport_3d.
(** The one-dimensional steps exist, and every value of transverse_waves gives another transverse change. *)
Definition changes145 (qbc auxbc : arr Q) (trans : Z) : Q :=
  across_change noundef (demo93 2) rpt93 rptt93 trans auxbc qbc 0 2 [3; 2; 3]%Z 0%Z + across_change noundef (demo93 2) rpt93 rptt93 trans auxbc qbc 0 3 [3; 2; 3]%Z 0%Z.
Definition distinct145 (l : list Q) : bool := forallb (fun i => forallb (fun j => Nat.eqb i j || negb (Qeq_bool (nth i l 0) (nth j l 0)))%bool (seq 0 (length l))) (seq 0 (length l)).
Example C145_example :
  Forall (described (n_order (demo93 2))) [0; 10; 11; 20; 21; 22]%Z /\
  match apply_bcs Q Qopp 2 true no_funs 1 [per 2; per 2; per 2] data93 capa93 zero_arr zero_arr with
  | Ok (qbc, auxbc) =>
    (kpasses (kernel nopow noundef Fortran (line_settings (demo93 2) 0 (per 2)) (fun n e => qbc n [e; 2; 3]%Z) (fun n e => auxbc n [e; 2; 3]%Z)) (fun u _ => negb (Qeq_bool (u 0 3)%Z 1)) &&
     kpasses (kernel nopow noundef Fortran (line_settings (demo93 2) 1 (per 2)) (fun n e => qbc n [2; e; 3]%Z) (fun n e => auxbc n [2; e; 3]%Z)) (fun u _ => negb (Qeq_bool (u 0 2)%Z 5)) &&
     kpasses (kernel nopow noundef Fortran (line_settings (demo93 2) 2 (per 2)) (fun n e => qbc n [2; 2; e]%Z) (fun n e => auxbc n [2; 2; e]%Z)) (fun u _ => negb (Qeq_bool (u 0 2)%Z 5)) &&
     distinct145 (map (changes145 qbc auxbc) [0; 10; 11; 20; 21; 22]%Z))%bool
  | _ => false
  end = true.
Proof.
  split; [|vm_compute; reflexivity].
  apply Forall_forall. intros t Ht. cbn [In] in Ht. unfold described. cbn.
  destruct Ht as [<-|[<-|[<-|[<-|[<-|[<-|[]]]]]]]; [left|left|left|right|right|right]; repeat split; auto 10; discriminate.
Qed.

(** ** C146: the unsplit solver treats the three axes alike *)
Theorem C146_axes_reordered :
  forall undef S Dx Dy Dz rpt rptt p trans stale stale' q aux qbc0 auxbc0 qbc1 auxbc1,
  In p orders -> n_bcs S = [Dx; Dy; Dz] -> (2 <= n_ng S)%nat -> mcapa_in_aux S ->
  fit_dim (n_ng S) (Nat.ltb 0 (n_naux S)) (Z.of_nat (n_neq S)) Dx -> fit_dim (n_ng S) (Nat.ltb 0 (n_naux S)) (Z.of_nat (n_neq S)) Dy ->
  fit_dim (n_ng S) (Nat.ltb 0 (n_naux S)) (Z.of_nat (n_neq S)) Dz -> described (n_order S) trans ->
  exists q1 c1 q2 c2,
  unsplit3_step undef S rpt rptt stale trans q aux qbc0 auxbc0 = MStepped q1 c1 /\
  unsplit3_step undef (reordered_problem p S) (reordered_rpt p rpt) (reordered_rptt p rptt) stale' trans (rearranged p q) (rearranged p aux) qbc1 auxbc1 = MStepped q2 c2 /\
  c2 == c1 /\
  forall m i j k, (0 <= m < Z.of_nat (n_neq S))%Z -> (0 <= i < ncells Dx)%Z -> (0 <= j < ncells Dy)%Z -> (0 <= k < ncells Dz)%Z ->
  q2 m (reordered p [i; j; k]) == q1 m [i; j; k].
Proof.
  intros undef S Dx Dy Dz rpt rptt p trans stale stale' q aux qbc0 auxbc0 qbc1 auxbc1 Hp HB Hg Hk Fx Fy Fz Hd.
  exact (reorder undef S Dx Dy Dz rpt rptt p Hp trans stale stale' HB Hg Hk Fx Fy Fz Hd q aux qbc0 auxbc0 qbc1 auxbc1).
Qed.
Print Assumptions C146_axes_reordered.
(** [orders] are all orders. *)
Example C146_orders : forall a b c : nat, NoDup [a; b; c] -> (a < 3)%nat -> (b < 3)%nat -> (c < 3)%nat -> In [a; b; c] orders.
Proof.
  intros a b c H Ha Hb Hc. rewrite !NoDup_cons_iff in H. cbn [In] in H.
  destruct a as [|[|[|a]]]; [| | |lia]; destruct b as [|[|[|b]]]; [| | |lia| | | |lia| | | |lia]; destruct c as [|[|[|c]]]; try lia;
    try (exfalso; clear - H; intuition congruence); cbn; auto 10.
Qed.
Definition demo146 : msettings := mkMSet 1 1 1 2 false 2 (fun _ => 1%Z)
  (fun d => match d with 0%nat => advection 1 | 1%nat => burgers | _ => advection (-(2)) end) (fun _ _ _ _ _ _ _ => (fun _ => 0, fun _ => 0))
  (fun d => match d with 0%nat => 1 | 1%nat => 2 | _ => 3 end) (1 # 4) (Some 0%Z) [wall_dim; per 2; thin] no_funs.
Example C146_example :
  let p := [1; 0; 2]%nat in
  In p orders /\ n_bcs demo146 = [wall_dim; per 2; thin] /\ mcapa_in_aux demo146 /\ fit_dim 2 true 1 wall_dim /\ fit_dim 2 true 1 (per 2) /\ fit_dim 2 true 1 thin /\
  described (n_order demo146) 22 /\
  match value_at (unsplit3_step noundef demo146 rpt93 rptt93 clean 22 data93 capa93 zero_arr zero_arr) [1; 0; 0]%Z,
        value_at (unsplit3_step noundef (reordered_problem p demo146) (reordered_rpt p rpt93) (reordered_rptt p rptt93) clean 22 (rearranged p data93) (rearranged p capa93) zero_arr zero_arr) [0; 1; 0]%Z,
        value_at (unsplit3_step noundef (reordered_problem p demo146) rpt93 rptt93 clean 22 (rearranged p data93) (rearranged p capa93) zero_arr zero_arr) [0; 1; 0]%Z with
  | Some v, Some w, Some u => (Qeq_bool v w && negb (Qeq_bool v 2) && negb (Qeq_bool v u))%bool
  | _, _, _ => false
  end = true.
Proof.
  cbv zeta. split; [cbn; auto 10|]. split; [reflexivity|]. split; [intros k E; injection E as <-; cbn; lia|].
  split; [unfold fit_dim, standard, wide; cbn; intuition (auto; try discriminate; try lia)|].
  split; [unfold fit_dim, standard, wide; cbn; intuition (auto; try discriminate; try lia)|].
  split; [unfold fit_dim, standard, wide; cbn; intuition (auto; try discriminate; try lia)|].
  split; [right; split; [cbn; auto|discriminate]|]. vm_compute. reflexivity.
Qed.
