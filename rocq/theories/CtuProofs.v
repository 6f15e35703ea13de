(** Proofs about the unsplit method: the transverse corrections in terms of faces. *)
From Verif Require Import Base BCModel BCSpec BCProofs LimiterModel LimiterProofs Classic1DModel Classic1DSpec
  Classic1DProofs Classic1DProofs2 ParallelProofs2 SweepModel SweepSpec SweepProofs SweepProofs2 SweepProofs3 SweepProofs4
  UnsplitModel UnsplitProofs UnsplitProofs2 UnsplitProofs3 CtuSpec.

Section Faces.
Variable undef : Q -> Q -> Z -> Q.
Variable S : msettings.
Variable trans : Z.
Notation neq := (n_neq S).
Notation g := (Z.of_nat (n_ng S)).
Notation ns := (map ncells (n_bcs S)).
Notation mxd d := (nth d ns 0%Z).
Variable auxbc x : arr Q.
Hypothesis Ht : (0 < trans)%Z.

(** The cell with Fortran indices i along d and j across *)
Definition cellat (d : nat) (i j : Z) : list Z := put d (i + g - 1)%Z (put (1 - d) (j + g - 1)%Z [0; 0]%Z).
Lemma row_vec n d j a i : (d < 2)%nat -> vec n (t_row S d j a) i = cell_vec n a (cellat d i j).
Proof. reflexivity. Qed.
Lemma cellat_lower d i j : (d < 2)%nat -> lower d (cellat d i j) = cellat d (i - 1) j.
Proof.
  intro Hd. unfold lower, cellat. destruct d as [|[|d]]; [| |lia]; cbn [Nat.sub put get].
  - replace (i + g - 1 - 1)%Z with (i - 1 + g - 1)%Z by lia. reflexivity.
  - replace (i + g - 1 - 1)%Z with (i - 1 + g - 1)%Z by lia. reflexivity.
Qed.
Lemma cellat_upper d i j : (d < 2)%nat -> upper d (cellat d i j) = cellat d (i + 1) j.
Proof.
  intro Hd. unfold upper, cellat. destruct d as [|[|d]]; [| |lia]; cbn [Nat.sub put get].
  - replace (i + g - 1 + 1)%Z with (i + 1 + g - 1)%Z by lia. reflexivity.
  - replace (i + g - 1 + 1)%Z with (i + 1 + g - 1)%Z by lia. reflexivity.
Qed.
Lemma cellat_below d i j : (d < 2)%nat -> lower (1 - d) (cellat d i j) = cellat d i (j - 1).
Proof.
  intro Hd. unfold lower, cellat. destruct d as [|[|d]]; [| |lia]; cbn [Nat.sub put get].
  - replace (j + g - 1 - 1)%Z with (j - 1 + g - 1)%Z by lia. reflexivity.
  - replace (j + g - 1 - 1)%Z with (j - 1 + g - 1)%Z by lia. reflexivity.
Qed.
Lemma cellat_above d i j : (d < 2)%nat -> upper (1 - d) (cellat d i j) = cellat d i (j + 1).
Proof.
  intro Hd. unfold upper, cellat. destruct d as [|[|d]]; [| |lia]; cbn [Nat.sub put get].
  - replace (j + g - 1 + 1)%Z with (j + 1 + g - 1)%Z by lia. reflexivity.
  - replace (j + g - 1 + 1)%Z with (j + 1 + g - 1)%Z by lia. reflexivity.
Qed.
Lemma cellat_ix d ix : (d < 2)%nat -> length ix = 2%nat -> cellat d (get d ix - g + 1) (get (1 - d) ix - g + 1) = ix.
Proof.
  intros Hd HL. destruct ix as [|u [|v [|]]]; try discriminate HL. unfold cellat. destruct d as [|[|d]]; [| |lia]; cbn [Nat.sub put get].
  - replace (u - g + 1 + g - 1)%Z with u by lia. replace (v - g + 1 + g - 1)%Z with v by lia. reflexivity.
  - replace (u - g + 1 + g - 1)%Z with u by lia. replace (v - g + 1 + g - 1)%Z with v by lia. reflexivity.
Qed.
Notation R d j := (solve_rps (n_rpn S d) neq (n_naux S) (-1) (t_row S d j x) (t_row S d j auxbc)).
Lemma face_R d i j : (d < 2)%nat ->
  (forall m p, wave (R d j) m p i = face_wave S auxbc x d (cellat d i j) m p) /\
  (forall p, spd (R d j) p i = o_s (at_face S auxbc x d (cellat d i j)) p) /\
  (forall m, amdq (R d j) m i = o_am (at_face S auxbc x d (cellat d i j)) m) /\
  (forall m, apdq (R d j) m i = o_ap (at_face S auxbc x d (cellat d i j)) m).
Proof.
  intro Hd. unfold face_wave, at_face. rewrite (cellat_lower d i j Hd). cbn [solve_rps wave spd amdq apdq].
  rewrite !row_vec by exact Hd. replace (i + -1 + 1)%Z with i by lia. replace (i + -1)%Z with (i - 1)%Z by lia. auto.
Qed.
Lemma row_ratio d i j : (d < 2)%nat -> line_dtdx S d (t_row S d j auxbc) i = cell_ratio S d auxbc (cellat d i j).
Proof. intro Hd. unfold line_dtdx, cell_ratio, t_row, slice, cellat. destruct (n_capa S); reflexivity. Qed.
Lemma dot_R d j i i' p : (d < 2)%nat ->
  zsum 0 neq (fun m => wave (R d j) m p i * wave (R d j) m p i') = dot S auxbc x d (cellat d i j) (cellat d i' j) p.
Proof.
  intro Hd. unfold dot. apply zsum_ext. intros m Hm. destruct (face_R d i j Hd) as (E & _). destruct (face_R d i' j Hd) as (E' & _).
  rewrite E, E'. reflexivity.
Qed.
Lemma limited_R d j i m p : (d < 2)%nat -> (1 <= i <= mxd d + 1)%Z ->
  (if any_limiter (n_nw S) (n_mthlim S) then f_limiter neq (mxd d) (n_mthlim S) undef (wave (R d j)) (spd (R d j)) else wave (R d j)) m p i =
  limited_wave undef S auxbc x d (cellat d i j) m p.
Proof.
  intros Hd Hi. destruct (face_R d i j Hd) as (EW & ES & _). unfold limited_wave. cbv zeta. destruct (any_limiter _ _); cbn [negb orb]; [|apply EW].
  unfold f_limiter. destruct (Z.eqb (n_mthlim S p) 0); cbn [orb]; [apply EW|].
  replace (Z.to_nat (mxd d + 2)) with (Datatypes.S (Z.to_nat (mxd d + 1))) by lia. rewrite f_limiter_exact by lia.
  unfold f_lim_at. cbv zeta. rewrite ES, !dot_R, EW by exact Hd. rewrite (cellat_lower d i j Hd), (cellat_upper d i j Hd).
  destruct (qeqb _ 0); [reflexivity|]. unfold f_phi. reflexivity.
Qed.
Lemma correction_R d j i m : (d < 2)%nat -> (1 <= i <= mxd d + 1)%Z ->
  f_cqxx (n_nw S) (n_fwave S) (line_dtdx S d (t_row S d j auxbc)) (spd (R d j))
    (if any_limiter (n_nw S) (n_mthlim S) then f_limiter neq (mxd d) (n_mthlim S) undef (wave (R d j)) (spd (R d j)) else wave (R d j)) m i =
  correction undef S auxbc x d (cellat d i j) m.
Proof.
  intros Hd Hi. destruct (face_R d i j Hd) as (_ & ES & _). unfold f_cqxx, correction. cbv zeta. rewrite !row_ratio by exact Hd.
  rewrite (cellat_lower d i j Hd). apply zsum_ext. intros p Hp. rewrite ES, limited_R by assumption. reflexivity.
Qed.
Notation F d j := (t_flux undef S trans d auxbc x j).
Lemma gadd_R d j i m : (d < 2)%nat -> (0 <= mxd d)%Z -> (1 <= i <= mxd d)%Z ->
  gadd1 (F d j) m i == - (1 # 2) * leaves_down undef S trans auxbc x d (cellat d i j) m /\
  gadd2 (F d j) m i == - (1 # 2) * leaves_up undef S trans auxbc x d (cellat d i j) m.
Proof.
  intros Hd Hx Hi. unfold t_flux, flux2. replace (Z.leb trans 0) with false by lia. cbv zeta. cbn [gadd1 gadd2].
  rewrite !in_slice_true by lia.
  unfold leaves_down, leaves_up, transverse, column. rewrite (cellat_upper d i j Hd), !(cellat_lower d) by exact Hd. rewrite !cellat_below, !cellat_above by exact Hd.
  rewrite !(row_ratio d i j Hd), !row_vec by exact Hd. replace (i + 1 - 1)%Z with i by lia.
  assert (EM : vec neq (fun m0 i0 => if ((Z.ltb 1 (n_order S) && Z.eqb trans 2) && in_slice 1 (mxd d + 2) i0)%bool
      then amdq (R d j) m0 i0 + f_cqxx (n_nw S) (n_fwave S) (line_dtdx S d (t_row S d j auxbc)) (spd (R d j))
        (if any_limiter (n_nw S) (n_mthlim S) then f_limiter neq (mxd d) (n_mthlim S) undef (wave (R d j)) (spd (R d j)) else wave (R d j)) m0 i0
      else amdq (R d j) m0 i0) (i + 1) = cell_vec neq (fun m0 ix => down_part undef S trans auxbc x d ix m0) (cellat d (i + 1) j)).
  { unfold cell_vec. apply vec_ext. intros c Hc. unfold down_part, with_correction. destruct (face_R d (i + 1) j Hd) as (_ & _ & E & _).
    destruct (Z.ltb 1 (n_order S) && Z.eqb trans 2)%bool; cbn [andb]; [|apply E]. rewrite in_slice_true by lia. rewrite E, correction_R by (assumption || lia). reflexivity. }
  assert (EP : vec neq (fun m0 i0 => if ((Z.ltb 1 (n_order S) && Z.eqb trans 2) && in_slice 1 (mxd d + 2) i0)%bool
      then apdq (R d j) m0 i0 - f_cqxx (n_nw S) (n_fwave S) (line_dtdx S d (t_row S d j auxbc)) (spd (R d j))
        (if any_limiter (n_nw S) (n_mthlim S) then f_limiter neq (mxd d) (n_mthlim S) undef (wave (R d j)) (spd (R d j)) else wave (R d j)) m0 i0
      else apdq (R d j) m0 i0) i = cell_vec neq (fun m0 ix => up_part undef S trans auxbc x d ix m0) (cellat d i j)).
  { unfold cell_vec. apply vec_ext. intros c Hc. unfold up_part, with_correction. destruct (face_R d i j Hd) as (_ & _ & _ & E).
    destruct (Z.ltb 1 (n_order S) && Z.eqb trans 2)%bool; cbn [andb]; [|apply E]. rewrite in_slice_true by lia. rewrite E, correction_R by (assumption || lia). reflexivity. }
  rewrite EM, EP. split; ring.
Qed.
Lemma t_trans_R d m ix : (d < 2)%nat -> interior S ix ->
  t_trans undef S trans auxbc x d m ix == transverse_change undef S trans auxbc x d ix m.
Proof.
  intros Hd [HL HI]. pose proof (HI d Hd) as Hi. unfold t_trans, transverse_change. cbv zeta. replace (Z.leb trans 0) with false by lia.
  set (i := (get d ix - g + 1)%Z). set (j := (get (1 - d) ix - g + 1)%Z).
  assert (X : ix = cellat d i j) by (symmetry; apply cellat_ix; assumption).
  assert (I : (1 <= i <= mxd d)%Z) by (unfold i; lia).
  unfold transverse_flux. rewrite X, cellat_above, !cellat_below by exact Hd. replace (j + 1 - 1)%Z with j by lia.
  destruct (gadd_R d j i m Hd ltac:(lia) I) as (A1 & A2). destruct (gadd_R d (j + 1) i m Hd ltac:(lia) I) as (B1 & _). destruct (gadd_R d (j - 1) i m Hd ltac:(lia) I) as (_ & C2).
  unfold mcapacity. destruct (n_capa S); rewrite A1, A2, B1, C2; [unfold Qdiv|unfold Qdiv; change (/ 1) with 1]; ring.
Qed.
End Faces.

Theorem corner_transport pow undef S trans q aux qbc0 auxbc0 qbc auxbc Dx Dy m i j ux cx uy cy :
  n_bcs S = [Dx; Dy] -> (1 <= n_ng S)%nat -> (0 <= m < Z.of_nat (n_neq S))%Z -> (0 <= i < ncells Dx)%Z -> (0 <= j < ncells Dy)%Z ->
  apply_bcs Q Qopp (n_ng S) (Nat.ltb 0 (n_naux S)) (n_funs S) (Z.of_nat (n_neq S)) (n_bcs S) q aux qbc0 auxbc0 = Ok (qbc, auxbc) ->
  let a := (i + Z.of_nat (n_ng S))%Z in let b := (j + Z.of_nat (n_ng S))%Z in
  kernel pow undef Fortran (line_settings S 0 Dx) (fun c k => qbc c [k; b]) (fun c k => auxbc c [k; b]) = Some (ux, cx) ->
  kernel pow undef Fortran (line_settings S 1 Dy) (fun c k => qbc c [a; k]) (fun c k => auxbc c [a; k]) = Some (uy, cy) ->
  exists q' cfl, unsplit_step undef S trans q aux qbc0 auxbc0 = MStepped q' cfl /\
  q' m [i; j] == ux m a + uy m b - qbc m [a; b] +
    transverse_change undef S trans auxbc qbc 0 [a; b] m + transverse_change undef S trans auxbc qbc 1 [a; b] m.
Proof.
  intros HB Hg Hm Hi Hj E a b KX KY. unfold unsplit_step. rewrite E. cbv zeta. eexists. eexists. split; [reflexivity|].
  unfold set_q_from_qbc. cbn [shift map]. fold a b.
  assert (Hlen : length (n_bcs S) = 2%nat) by (rewrite HB; reflexivity).
  assert (Hns : map ncells (n_bcs S) = [ncells Dx; ncells Dy]) by (rewrite HB; reflexivity).
  assert (Hn : Forall (fun n => 0 <= n)%Z (map ncells (n_bcs S))) by (rewrite Hns; repeat constructor; lia).
  assert (IX : interior S [a; b]).
  { split; [reflexivity|]. rewrite Hns. intros [|[|d]] Hd; cbn [get nth]; unfold a, b; lia. }
  rewrite (step2_value undef S trans Hg auxbc qbc Hlen Hn (layers S) m [a; b] (layers_nonneg S) IX).
  destruct (sweep_at undef S Hg Hn (layers S) false 0 auxbc qbc (layers_nonneg S) ltac:(lia)) as [AX _].
  destruct (sweep_at undef S Hg Hn (layers S) false 1 auxbc qbc (layers_nonneg S) ltac:(lia)) as [AY _].
  assert (LY : (0 <= layers S)%Z) by apply layers_nonneg.
  rewrite <- AX, <- AY by exact Hm.
  rewrite (sweep_1d pow undef S Hg Hn 0 false auxbc qbc m [a; b] Dx ux cx); [| |split; [rewrite Hlen; reflexivity|]| | |]; [|lia| |rewrite Hns; reflexivity|exact Hm|exact KX].
  2:{ rewrite Hns, Hlen. intros [|[|k]] Hk; cbn [Nat.eqb get nth]; unfold a, b; lia. }
  rewrite (sweep_1d pow undef S Hg Hn 1 false auxbc qbc m [a; b] Dy uy cy); [| |split; [rewrite Hlen; reflexivity|]| | |]; [|lia| |rewrite Hns; reflexivity|exact Hm|exact KY].
  2:{ rewrite Hns, Hlen. intros [|[|k]] Hk; cbn [Nat.eqb get nth]; unfold a, b; lia. }
  cbn [get].
  assert (TT : forall d, (d < 2)%nat -> t_trans undef S trans auxbc qbc d m [a; b] == transverse_change undef S trans auxbc qbc d [a; b] m).
  { intros d Hd. destruct (Z.leb_spec trans 0) as [K|K]; [|apply t_trans_R; assumption].
    unfold transverse_change. replace (Z.leb trans 0) with true by lia.
    unfold t_trans, t_flux, flux2. cbv zeta. replace (Z.leb trans 0) with true by lia. cbn [gadd1 gadd2]. destruct (n_capa S); unfold Qdiv; ring. }
  rewrite (TT 0%nat), (TT 1%nat) by lia. ring.
Qed.
