(** Proofs about parallel SharpClaw runs, part 1: dq of all processes is the serial dq. *)
From Verif Require Import Base TimeModel BCModel BCSpec BCProofs LimiterModel LimiterSpec
  Classic1DModel Classic1DSpec Classic1DProofs Classic1DProofs2 Classic1DProofs3 Classic1DProofs5
  WenoModel SharpModel SemiModel SemiSpec SemiProofs SweepProofs6
  GeometrySpec ParallelModel ParallelSpec ParallelProofs ParallelProofs3 PSharpModel PSharpSpec.

Lemma dq_kernel M C q aux qbc0 auxbc0 : dq_hyperbolic M C q aux qbc0 auxbc0 =
  match apply_bcs Q Qopp (c_ng C) (Nat.ltb 0 (c_naux C)) (c_funs C) (Z.of_nat (c_neq C)) [c_bc C] q aux qbc0 auxbc0 with
  | Raised e => SemiBC e
  | Ok (qbc, auxbc) => semi_kernel M C (fun m i => qbc m [i]) (fun m i => auxbc m [i])
  end.
Proof. reflexivity. Qed.

Ltac deep := first [reflexivity | lia | (f_equal; deep)].
(** ** Reconstructions of two grids *)
Lemma shu_window eps k q q' h h' i i' :
  q' (i' - 1)%Z = q (i - 1)%Z -> q' i' = q i -> q' (i' + 1)%Z = q (i + 1)%Z -> q' (i' + 2)%Z = q (i + 2)%Z ->
  h' (i' - 2 * k)%Z = h (i - 2 * k)%Z -> h' (i' - k)%Z = h (i - k)%Z -> h' i' = h i -> h' (i' + k)%Z = h (i + k)%Z ->
  shu eps k q' h' i' = shu eps k q h i.
Proof. intros A B C D E F G H. unfold shu. cbv zeta. rewrite A, B, C, D, E, F, G, H. reflexivity. Qed.
Lemma wave_factor_window eps neq w w' k mw i i' :
  (forall m d, (0 <= m < Z.of_nat neq)%Z -> (-2 <= d <= 2)%Z -> (-2 <= k * d <= 1)%Z -> w' m mw (i' + d)%Z = w m mw (i + d)%Z) ->
  (k = 1 \/ k = -1)%Z ->
  wave_factor eps neq w' k mw i' = wave_factor eps neq w k mw i.
Proof.
  intros H Hk.
  assert (Dd : forall d, (-2 <= d <= 2)%Z -> (-2 <= k * d <= 1)%Z ->
     zsum 0 neq (fun m => w' m mw (i' + d)%Z * w' m mw i') = zsum 0 neq (fun m => w m mw (i + d)%Z * w m mw i)).
  { intros d Hd1 Hd2. apply zsum_ext. intros m Hm. rewrite (H m d) by lia.
    pose proof (H m 0%Z ltac:(lia) ltac:(lia) ltac:(lia)) as E. rewrite !Z.add_0_r in E. rewrite E. reflexivity. }
  unfold wave_factor.
  pose proof (Dd 0%Z ltac:(lia) ltac:(lia)) as E0. rewrite !Z.add_0_r in E0.
  pose proof (Dd (- 2 * k)%Z ltac:(lia) ltac:(lia)) as E1.
  pose proof (Dd (- k)%Z ltac:(lia) ltac:(lia)) as E2.
  pose proof (Dd k ltac:(lia) ltac:(lia)) as E3.
  replace (i - 2 * k)%Z with (i + - 2 * k)%Z by lia. replace (i' - 2 * k)%Z with (i' + - 2 * k)%Z by lia.
  replace (i - k)%Z with (i + - k)%Z by lia. replace (i' - k)%Z with (i' + - k)%Z by lia.
  cbv zeta. rewrite E0, E1, E2, E3. reflexivity.
Qed.

Section Window.
Variable C : settings.
Notation neq := (c_neq C).
Notation nw := (c_nw C).
Notation naux := (c_naux C).
Notation ng := (Z.of_nat (c_ng C)).
Notation mx := (ncells (c_bc C)).
Variable b : Z * Z.
Notation o := (fst b).
Notation mx' := (snd b - fst b)%Z.
Notation C' := (with_bc C (local_bc (c_bc C) b)).
Hypothesis Hg : (3 <= c_ng C)%nat.
Hypothesis HB : (0 <= fst b /\ fst b < snd b /\ snd b <= mx)%Z.
Hypothesis HC : capa_in_aux C.
Variables qb ab qb' ab' : Z -> Z -> Q.
Hypothesis HS : forall k, (0 <= k < mx' + 2 * ng)%Z -> same_cell C qb' ab' qb ab k (k + o).

Lemma win_q m k : (0 <= m < Z.of_nat neq)%Z -> (0 <= k < mx' + 2 * ng)%Z -> qb' m k = qb m (k + o)%Z.
Proof. intros Hm Hk. destruct (HS k Hk) as [E _]. exact (vec_inj _ _ _ _ _ m E Hm). Qed.
Lemma win_a m k : (0 <= m < Z.of_nat naux)%Z -> (0 <= k < mx' + 2 * ng)%Z -> ab' m k = ab m (k + o)%Z.
Proof. intros Hm Hk. destruct (HS k Hk) as [_ E]. exact (vec_inj _ _ _ _ _ m E Hm). Qed.

(** Edge values of the Python code next to the interfaces of the grid. *)
Lemma py_edges eps lim cd :
  match py_reconstruct eps neq nw (mx' + 2 * ng) lim cd qb' (wave (solve_rps (c_rp C) neq naux 0 qb' ab')),
        py_reconstruct eps neq nw (mx + 2 * ng) lim cd qb (wave (solve_rps (c_rp C) neq naux 0 qb ab)) with
  | Edges e', Edges e =>
      forall m, (0 <= m < Z.of_nat neq)%Z ->
      (forall k, (ng - 1 <= k <= ng + mx' - 1)%Z -> snd e' m k = snd e m (k + o)%Z) /\
      (forall k, (ng <= k <= ng + mx')%Z -> fst e' m k = fst e m (k + o)%Z)
  | NotImplemented, NotImplemented => True
  | Unassigned, Unassigned => True
  | _, _ => False
  end.
Proof.
  unfold py_reconstruct. destruct (Z.eqb lim (-1)).
  { intros m Hm. cbn [fst snd]. split; intros k Hk; apply win_q; lia. }
  destruct (Z.eqb lim 0); [exact I|]. destruct (Z.eqb lim 1); [exact I|]. destruct (Z.eqb lim 2); [|exact I].
  destruct (Z.eqb cd 0).
  { intros m Hm. cbn [fst snd]. unfold py_weno. cbn [fst snd]. split; intros k Hk; rewrite !in_slice_true by lia.
    - apply shu_window; cbv beta.
      + rewrite win_q by lia. deep.
      + apply win_q; lia.
      + rewrite win_q by lia. deep.
      + rewrite win_q by lia. deep.
      + rewrite !win_q by lia. deep.
      + rewrite !win_q by lia. deep.
      + rewrite !win_q by lia. deep.
      + rewrite !win_q by lia. deep.
    - replace (k + o - 1)%Z with (k - 1 + o)%Z by lia. apply shu_window; cbv beta.
      + rewrite win_q by lia. deep.
      + rewrite win_q by lia. deep.
      + rewrite win_q by lia. deep.
      + rewrite win_q by lia. deep.
      + rewrite !win_q by lia. deep.
      + rewrite !win_q by lia. deep.
      + rewrite !win_q by lia. deep.
      + rewrite !win_q by lia. deep. }
  destruct (Z.eqb cd 1); [|destruct (Z.eqb cd 2); exact I].
  assert (W : forall m mw j, (0 <= j)%Z -> (j + 1 < mx' + 2 * ng)%Z ->
    wave (solve_rps (c_rp C) neq naux 0 qb' ab') m mw j = wave (solve_rps (c_rp C) neq naux 0 qb ab) m mw (j + o)%Z).
  { intros m mw j H1 H2. destruct (HS j ltac:(lia)) as [A1 A2]. destruct (HS (j + 1)%Z ltac:(lia)) as [B1 B2].
    cbn [solve_rps wave]. rewrite !Z.add_0_r. rewrite A1, A2, B1, B2. replace (j + 1 + o)%Z with (j + o + 1)%Z by lia. reflexivity. }
  intros m Hm. unfold weno5_wave. cbn [fst snd]. split; intros k Hk; rewrite !in_slice_true by lia; rewrite win_q by lia; f_equal;
    apply zsum_ext; intros mw _.
  - rewrite W by lia. f_equal. apply wave_factor_window; [|lia]. intros m0 d Hm0 Hd Hd'. rewrite W by lia. f_equal. lia.
  - replace (k + o - 1)%Z with (k - 1 + o)%Z by lia. rewrite W by lia. f_equal. apply wave_factor_window; [|lia].
    intros m0 d Hm0 Hd Hd'. rewrite W by lia. f_equal. lia.
Qed.

Lemma win_aux_vec k k' : (0 <= k < mx' + 2 * ng)%Z -> k' = (k + o)%Z -> vec naux ab' k = vec naux ab k'.
Proof. intros Hk ->. exact (proj2 (HS k Hk)). Qed.

Definition same_kind (r' r : semiresult) : Prop :=
  match r', r with
  | DQ d' c', DQ d c => forall m i, (0 <= m < Z.of_nat neq)%Z -> (0 <= i < mx')%Z -> d' m i = d m (i + o)%Z
  | SemiNotImplemented, SemiNotImplemented => True
  | SemiUnassigned, SemiUnassigned => True
  | _, _ => False
  end.

Lemma py_window eps lim cd : same_kind (semi_kernel (PyRecon eps lim cd) C' qb' ab') (semi_kernel (PyRecon eps lim cd) C qb ab).
Proof.
  unfold semi_kernel. cbn [with_bc c_neq c_nw c_naux c_ng c_rp c_bc local_bc ncells].
  pose proof (py_edges eps lim cd) as HE.
  destruct (py_reconstruct eps neq nw (mx' + 2 * ng) lim cd qb' _) as [e'| |], (py_reconstruct eps neq nw (mx + 2 * ng) lim cd qb _) as [e| |];
    try contradiction; try exact I.
  unfold py_semi. cbn [same_kind with_bc c_neq c_nw c_naux c_ng c_rp c_bc local_bc ncells c_dt c_dx c_capa].
  intros m i Hm Hi. rewrite !in_slice_true by lia.
  assert (R : forall k, (ng - 1 <= k <= ng + mx' - 1)%Z -> forall m0,
    amdq (edge_rps (c_rp C) neq naux 0 e' ab') m0 k = amdq (edge_rps (c_rp C) neq naux 0 e ab) m0 (k + o)%Z /\
    apdq (edge_rps (c_rp C) neq naux 0 e' ab') m0 k = apdq (edge_rps (c_rp C) neq naux 0 e ab) m0 (k + o)%Z).
  { intros k Hk m0. cbn [edge_rps amdq apdq]. rewrite !Z.add_0_r.
    rewrite (vec_ext neq (snd e') (snd e) k (k + o)%Z) by (intros m1 Hm1; apply HE; [exact Hm1|lia]).
    rewrite (vec_ext neq (fst e') (fst e) (k + 1)%Z (k + o + 1)%Z) by (intros m1 Hm1; replace (k + o + 1)%Z with (k + 1 + o)%Z by lia; apply HE; [exact Hm1|lia]).
    rewrite (win_aux_vec k (k + o)%Z), (win_aux_vec (k + 1)%Z (k + o + 1)%Z) by lia. auto. }
  assert (R2 : forall m0,
    amdq (cell_rps (c_rp C) neq naux e' ab') m0 (i + ng)%Z = amdq (cell_rps (c_rp C) neq naux e ab) m0 (i + o + ng)%Z /\
    apdq (cell_rps (c_rp C) neq naux e' ab') m0 (i + ng)%Z = apdq (cell_rps (c_rp C) neq naux e ab) m0 (i + o + ng)%Z).
  { intros m0. cbn [cell_rps amdq apdq]. replace (i + o + ng)%Z with (i + ng + o)%Z by lia.
    rewrite (vec_ext neq (snd e') (snd e) (i + ng)%Z (i + ng + o)%Z) by (intros m1 Hm1; apply HE; [exact Hm1|lia]).
    rewrite (vec_ext neq (fst e') (fst e) (i + ng)%Z (i + ng + o)%Z) by (intros m1 Hm1; apply HE; [exact Hm1|lia]).
    rewrite (win_aux_vec (i + ng)%Z (i + ng + o)%Z) by lia. auto. }
  rewrite (proj1 (R2 m)), (proj2 (R2 m)).
  rewrite (proj1 (R (i + ng)%Z ltac:(lia) m)), (proj2 (R (i + ng - 1)%Z ltac:(lia) m)).
  replace (i + ng + o)%Z with (i + o + ng)%Z by lia. replace (i + ng - 1 + o)%Z with (i + o + ng - 1)%Z by lia.
  f_equal. f_equal. unfold py_dtdx. destruct (c_capa C) as [k|] eqn:Ek; cbn [option_map]; [|reflexivity].
  rewrite win_a by (try lia; apply HC; exact Ek). replace (i + ng + o)%Z with (i + o + ng)%Z by lia. reflexivity.
Qed.

(** Fortran *)
Variable r : Z -> (Z -> Z -> Q) -> (Z -> Z -> Q) -> edges.
Variable tf : option (list Q -> list Q -> list Q -> list Q -> Z -> Q).
Hypothesis HR : local_recon neq naux ng r.
Notation fq := (fun m i => qb m (i + ng - 1)%Z).
Notation fa := (fun m i => ab m (i + ng - 1)%Z).
Notation fq' := (fun m i => qb' m (i + ng - 1)%Z).
Notation fa' := (fun m i => ab' m (i + ng - 1)%Z).
Notation e := (r mx fq fa).
Notation e' := (r mx' fq' fa').

Lemma f_edges m : (0 <= m < Z.of_nat neq)%Z ->
  (forall i, (0 <= i <= mx')%Z -> snd e' m i = snd e m (i + o)%Z) /\
  (forall i, (1 <= i <= mx' + 1)%Z -> fst e' m i = fst e m (i + o)%Z).
Proof.
  apply HR; try lia.
  - intros m0 i Hm0 Hi. cbv beta. rewrite win_q by lia. f_equal. lia.
  - intros m0 i Hm0 Hi. cbv beta. rewrite win_a by lia. f_equal. lia.
Qed.
Lemma f_aux_vec i i' : (1 - ng <= i <= mx' + ng)%Z -> i' = (i + o)%Z -> vec naux fa' i = vec naux fa i'.
Proof. intros Hi ->. apply vec_ext. intros m Hm. cbv beta. rewrite win_a by lia. f_equal. lia. Qed.
Lemma f_edge_rps j : (1 <= j <= mx' + 1)%Z ->
  (forall m, amdq (edge_rps (c_rp C) neq naux (-1) e' fa') m j = amdq (edge_rps (c_rp C) neq naux (-1) e fa) m (j + o)%Z) /\
  (forall m, apdq (edge_rps (c_rp C) neq naux (-1) e' fa') m j = apdq (edge_rps (c_rp C) neq naux (-1) e fa) m (j + o)%Z) /\
  (forall p, spd (edge_rps (c_rp C) neq naux (-1) e' fa') p j = spd (edge_rps (c_rp C) neq naux (-1) e fa) p (j + o)%Z).
Proof.
  intros Hj. cbn [edge_rps amdq apdq spd].
  replace (j + -1 + 1)%Z with j by lia. replace (j + o + -1 + 1)%Z with (j + o)%Z by lia. replace (j + o + -1)%Z with (j + -1 + o)%Z by lia.
  rewrite (vec_ext neq (snd e') (snd e) (j + -1)%Z (j + -1 + o)%Z) by (intros m1 Hm1; apply f_edges; [exact Hm1|lia]).
  rewrite (vec_ext neq (fst e') (fst e) j (j + o)%Z) by (intros m1 Hm1; apply f_edges; [exact Hm1|lia]).
  rewrite (f_aux_vec j (j + o)%Z), (f_aux_vec (j + -1)%Z (j + -1 + o)%Z) by lia. auto.
Qed.

Lemma f_window : same_kind (semi_kernel (FRecon (r mx') tf) C' qb' ab') (semi_kernel (FRecon (r mx) tf) C qb ab).
Proof.
  unfold semi_kernel, f_semi. cbn [with_bc c_neq c_nw c_naux c_ng c_rp c_bc local_bc ncells].
  assert (T : forall i, (1 <= i <= mx')%Z -> sharp_dtdx C' fa' i = sharp_dtdx C fa (i + o)%Z).
  { intros i Hi. unfold sharp_dtdx. cbn [with_bc c_capa c_dt c_dx c_ng]. destruct (c_capa C) as [k|] eqn:Ek; [|reflexivity].
    cbv beta. rewrite win_a by (try lia; apply HC; exact Ek). do 3 f_equal. lia. }
  assert (V : forall i, (1 <= i <= mx')%Z -> vec neq (fst e') i = vec neq (fst e) (i + o)%Z /\ vec neq (snd e') i = vec neq (snd e) (i + o)%Z /\
     vec naux fa' i = vec naux fa (i + o)%Z).
  { intros i Hi. split; [|split]; [apply vec_ext; intros; apply f_edges; lia|apply vec_ext; intros; apply f_edges; lia|apply f_aux_vec; lia]. }
  destruct tf as [t|]; cbn [same_kind]; intros m i Hm Hi; rewrite !in_slice_true by lia;
    destruct (V (i + 1)%Z ltac:(lia)) as (V1 & V2 & V3); destruct (f_edge_rps (i + 1)%Z ltac:(lia)) as (_ & P & _);
    destruct (f_edge_rps (i + 1 + 1)%Z ltac:(lia)) as (A & _ & _); rewrite T, P, A by lia.
  - rewrite V1, V2, V3. replace (i + 1 + o)%Z with (i + o + 1)%Z by lia. replace (i + 1 + 1 + o)%Z with (i + o + 1 + 1)%Z by lia. reflexivity.
  - cbn [cell_rps amdq apdq]. rewrite V1, V2, V3. replace (i + 1 + o)%Z with (i + o + 1)%Z by lia.
    replace (i + 1 + 1 + o)%Z with (i + o + 1 + 1)%Z by lia. reflexivity.
Qed.

End Window.

(** The Courant number of the Fortran kernel: the largest of 0 and |s| dt/dx over the interfaces 1 .. n+1. *)
Definition kspd (C : settings) (r : (Z -> Z -> Q) -> (Z -> Z -> Q) -> edges) (qb ab : Z -> Z -> Q) : Z -> Z -> Q :=
  let ng := Z.of_nat (c_ng C) in
  let fq := fun m i => qb m (i + ng - 1)%Z in let fa := fun m i => ab m (i + ng - 1)%Z in
  spd (edge_rps (c_rp C) (c_neq C) (c_naux C) (-1) (r fq fa) fa).
Lemma kernel_speed C r tf qb ab : c_capa C = None -> (0 <= ncells (c_bc C))%Z -> exists d c, semi_kernel (FRecon r tf) C qb ab = DQ d c /\ 0 <= c /\
  (forall p i, (0 <= p < Z.of_nat (c_nw C))%Z -> (1 <= i <= ncells (c_bc C) + 1)%Z ->
     c_dt C / c_dx C * kspd C r qb ab p i <= c /\ - (c_dt C / c_dx C) * kspd C r qb ab p i <= c) /\
  (c = 0 \/ exists p i, (0 <= p < Z.of_nat (c_nw C))%Z /\ (1 <= i <= ncells (c_bc C) + 1)%Z /\
     (c = c_dt C / c_dx C * kspd C r qb ab p i \/ c = - (c_dt C / c_dx C) * kspd C r qb ab p i)).
Proof.
  intros HN Hm. unfold semi_kernel, f_semi.
  set (R := edge_rps _ _ _ _ _ _).
  destruct (f_cfl_spec (c_nw C) (ncells (c_bc C)) (sharp_dtdx C (fun m i => ab m (i + Z.of_nat (c_ng C) - 1)%Z)) (spd R) ltac:(lia)) as (A & B & D).
  unfold sharp_dtdx in *. rewrite HN in *.
  destruct tf as [t|]; (eexists; eexists; split; [reflexivity|]; split; [exact A|]; split; [exact B|exact D]).
Qed.

Lemma dq_collect_all (f : Z -> Z -> Q) (P : Z -> Prop) : forall rs,
  (forall b r, In (b, r) rs -> exists a c, r = DQ a c /\ forall m i, P m -> (fst b <= i < snd b)%Z -> a m (i - fst b)%Z = f m i) ->
  exists A c, dq_collect rs = DQ A c /\
  (forall m i, P m -> (exists b r, In (b, r) rs /\ (fst b <= i < snd b)%Z) -> A m i = f m i) /\
  ((forall b a c', In (b, DQ a c') rs -> 0 <= c') -> 0 <= c /\ (forall b a c', In (b, DQ a c') rs -> c' <= c) /\ (c = 0 \/ exists b a, In (b, DQ a c) rs)).
Proof.
  induction rs as [|[b r] rs IH]; intros H; cbn [dq_collect].
  - exists (fun _ _ => 0), 0. split; [reflexivity|]. split; [intros m i _ (b & r & [] & _)|]. intros _. split; [lra|]. split; [intros b a c' []|]. left. reflexivity.
  - destruct (H b r (or_introl eq_refl)) as (a & c & -> & Ha).
    destruct IH as (A & c0 & E & IA & IC).
    { intros b' r' Hin. apply H. right. exact Hin. }
    rewrite E. eexists. exists (pymax c c0). split; [reflexivity|]. destruct (pymax_spec c c0) as (M1 & M2 & M3). split.
    + intros m i Hm (b' & r' & Hin & Hi). destruct (in_slice (fst b) (snd b) i) eqn:Es.
      * apply Ha; [exact Hm|]. unfold in_slice in Es. lia.
      * apply IA; [exact Hm|]. destruct Hin as [Hin|Hin].
        -- injection Hin as <- _. rewrite in_slice_true in Es by exact Hi. discriminate.
        -- exists b', r'. auto.
    + intros H0. destruct IC as (I0 & I1 & I2). { intros b' a' c' Hin. apply (H0 b' a'). right. exact Hin. }
      pose proof (H0 b a c (or_introl eq_refl)) as Hc0. split; [lra|]. split.
      * intros b' a' c' [Hin|Hin]; [injection Hin as _ _ <-; exact M1|]. specialize (I1 _ _ _ Hin). lra.
      * destruct M3 as [-> | ->].
        -- right. exists b, a. left. reflexivity.
        -- destruct I2 as [-> | (b' & a' & Hin)]; [left; reflexivity|]. right. exists b', a'. right. exact Hin.
Qed.
Lemma dq_collect_err e : (forall a c, e <> DQ a c) -> forall rs, rs <> [] -> (forall b r, In (b, r) rs -> r = e) -> dq_collect rs = e.
Proof.
  intros He [|[b r] rs] Hne H; [contradiction|]. cbn [dq_collect]. rewrite (H b r (or_introl eq_refl)).
  destruct e; try reflexivity. exfalso. eapply He. reflexivity.
Qed.

Section All.
Variable C : settings.
Notation neq := (c_neq C).
Notation ng := (Z.of_nat (c_ng C)).
Notation mx := (ncells (c_bc C)).
Variable bs : list (Z * Z).
Hypothesis Hg : (3 <= c_ng C)%nat.
Hypothesis HF : fit_dim (c_ng C) (has_aux C) (Z.of_nat neq) (c_bc C).
Hypothesis HD : decomposed (c_ng C) mx bs.
Hypothesis HC : capa_in_aux C.
Variable M : Z -> method.
Variables q aux q' aux' qbc0 auxbc0 auxbc0' : arr Q.
Hypothesis Sq : same_cells neq mx q q'.
Hypothesis Sx : same_cells (c_naux C) mx aux aux'.

Lemma serial_dq_ok : exists qbc auxbc : Z -> Z -> Q,
  (forall m i, (- ng <= i < mx + ng)%Z -> qbc m (i + ng)%Z = q_ghost_value Q Qopp [c_bc C] q m [i]) /\
  (has_aux C = true -> forall m i, (- ng <= i < mx + ng)%Z -> auxbc m (i + ng)%Z = aux_ghost_value Q [c_bc C] aux m [i]) /\
  dq_hyperbolic (M mx) C q aux qbc0 auxbc0 = semi_kernel (M mx) C qbc auxbc.
Proof.
  rewrite dq_kernel.
  destruct (apply_bcs_at Q Qopp (c_ng C) (has_aux C) (c_funs C) (Z.of_nat neq) [c_bc C] q aux qbc0 auxbc0) as (qb & xb & E & A & B & _);
    [lia|constructor; [exact HF|constructor]|].
  fold (has_aux C). rewrite E. exists (fun m i => qb m [i]), (fun m i => xb m [i]). split; [|split; [|reflexivity]].
  - intros m i Hi. exact (A m [i] (conj Hi I)).
  - intros Ha m i Hi. exact (B Ha m [i] (conj Hi I)).
Qed.
Lemma box_in b : In b bs -> (0 <= fst b /\ fst b < snd b /\ snd b <= mx)%Z.
Proof. intros Hb. destruct (box_fits C bs ltac:(lia) HF HD b Hb) as (_ & _ & _ & _ & HB & _). lia. Qed.
Lemma box_of i : (0 <= i < mx)%Z -> exists b, In b bs /\ (fst b <= i < snd b)%Z.
Proof. intros Hi. destruct HD as [HC' _]. exact (cuts_cover bs 0 mx i HC' Hi). Qed.

Lemma local_dq_ok qbc auxbc b :
  (forall m i, (- ng <= i < mx + ng)%Z -> qbc m (i + ng)%Z = q_ghost_value Q Qopp [c_bc C] q m [i]) ->
  (has_aux C = true -> forall m i, (- ng <= i < mx + ng)%Z -> auxbc m (i + ng)%Z = aux_ghost_value Q [c_bc C] aux m [i]) ->
  In b bs ->
  exists qbc' auxbc',
  (forall k, (0 <= k < snd b - fst b + 2 * ng)%Z -> same_cell C qbc' auxbc' qbc auxbc k (k + fst b)) /\
  local_dq M C q' aux' auxbc0' b = semi_kernel (M (snd b - fst b)%Z) (with_bc C (local_bc (c_bc C) b)) qbc' auxbc'.
Proof.
  intros Hq Hx Hin. pose proof (box_fits C bs ltac:(lia) HF HD b Hin) as HB. unfold local_dq.
  destruct (par_bcs_at Q Qopp (c_ng C) (has_aux C) (c_funs C) (Z.of_nat neq) [c_bc C] [b] q' aux' auxbc0') as (qb & xb & E & A & B & _).
  { lia. } { constructor; [exact HB|constructor]. }
  fold (has_aux C). rewrite E. exists (fun m i => qb m [i]), (fun m i => xb m [i]). split; [|reflexivity].
  destruct HB as (_ & _ & _ & _ & HB & _).
  intros k Hk.
  assert (IB : in_box (c_ng C) (local_bcs [c_bc C] [b]) [(k - ng)%Z]).
  { cbn [local_bcs combine map in_box local_bc ncells fst snd]. split; [lia|exact I]. }
  split; apply vec_ext; intros m Hm.
  - specialize (A m [(k - ng)%Z] IB). cbn [shift map global_pos combine fst snd] in A.
    replace (k - ng + ng)%Z with k in A by lia. rewrite A.
    replace (k + fst b)%Z with (fst b + (k - ng) + ng)%Z by lia. rewrite Hq by lia. apply (ghost_same C HF); [exact Sq|exact Hm|lia].
  - destruct (Bool.bool_dec (has_aux C) true) as [Ea|Ea].
    + specialize (B Ea m [(k - ng)%Z] IB). cbn [shift map global_pos combine fst snd] in B.
      replace (k - ng + ng)%Z with k in B by lia. rewrite B.
      replace (k + fst b)%Z with (fst b + (k - ng) + ng)%Z by lia. rewrite Hx by (exact Ea || lia). eapply (ghost_aux_same C ltac:(lia) HF); [exact Sx|exact Hm|lia].
    + apply not_true_is_false in Ea. unfold has_aux in Ea. apply Nat.ltb_ge in Ea. lia.
Qed.

Theorem par_dq_serial : local_method C M ->
  match dq_hyperbolic (M mx) C q aux qbc0 auxbc0, par_dq M C bs q' aux' auxbc0' with
  | DQ d c, DQ d' c' => forall m i, (0 <= m < Z.of_nat neq)%Z -> (0 <= i < mx)%Z -> d' m i = d m i
  | SemiNotImplemented, SemiNotImplemented => True
  | SemiUnassigned, SemiUnassigned => True
  | _, _ => False
  end.
Proof.
  intros HM. assert (Hn : (1 <= mx)%Z) by (destruct HF as (_ & _ & _ & _ & _ & (_ & _ & W) & _); exact W).
  destruct serial_dq_ok as (qbc & auxbc & Hq & Hx & ->). unfold par_dq.
  assert (W : forall b, In b bs -> same_kind C b (local_dq M C q' aux' auxbc0' b) (semi_kernel (M mx) C qbc auxbc)).
  { intros b Hb. destruct (local_dq_ok qbc auxbc b Hq Hx Hb) as (qb' & ab' & HS & ->). pose proof (box_in b Hb) as HB.
    destruct HM as [(eps & lim & cd & HM) | (r & tf & HM & HR)]; rewrite !HM.
    - apply py_window; assumption.
    - apply f_window; assumption. }
  assert (NE : bs <> []). { destruct (box_of 0 ltac:(lia)) as (b & Hb & _). intros ->. destruct Hb. }
  assert (NM : map (fun b => (b, local_dq M C q' aux' auxbc0' b)) bs <> []) by (intros E; apply map_eq_nil in E; contradiction).
  destruct (semi_kernel (M mx) C qbc auxbc) as [d c|e| |] eqn:EK.
  - destruct (dq_collect_all d (fun m => (0 <= m < Z.of_nat neq)%Z) (map (fun b => (b, local_dq M C q' aux' auxbc0' b)) bs)) as (A & c' & -> & PA & _).
    { intros b r Hin. apply in_map_iff in Hin. destruct Hin as (b' & Eb & Hb). injection Eb as -> <-. specialize (W b Hb).
      destruct (local_dq M C q' aux' auxbc0' b) as [a c1|e| |]; try contradiction. exists a, c1. split; [reflexivity|]. intros m i Hm Hi.
      cbn [same_kind] in W. rewrite W by lia. f_equal. lia. }
    intros m i Hm Hi. apply PA; [exact Hm|]. destruct (box_of i Hi) as (b & Hb & Hi'). exists b, (local_dq M C q' aux' auxbc0' b).
    split; [|exact Hi']. apply in_map_iff. exists b. auto.
  - exfalso. destruct (box_of 0 ltac:(lia)) as (b & Hb & _). specialize (W b Hb). destruct (local_dq M C q' aux' auxbc0' b); exact W.
  - rewrite (dq_collect_err SemiNotImplemented); [exact I|discriminate|exact NM|].
    intros b r Hin. apply in_map_iff in Hin. destruct Hin as (b' & Eb & Hb). injection Eb as -> <-. specialize (W b Hb).
    destruct (local_dq M C q' aux' auxbc0' b); try contradiction. reflexivity.
  - rewrite (dq_collect_err SemiUnassigned); [exact I|discriminate|exact NM|].
    intros b r Hin. apply in_map_iff in Hin. destruct Hin as (b' & Eb & Hb). injection Eb as -> <-. specialize (W b Hb).
    destruct (local_dq M C q' aux' auxbc0' b); try contradiction. reflexivity.
Qed.

Theorem par_speed_serial : local_fortran C M -> c_capa C = None ->
  match dq_hyperbolic (M mx) C q aux qbc0 auxbc0, par_dq M C bs q' aux' auxbc0' with
  | DQ d c, DQ d' c' => (forall m i, (0 <= m < Z.of_nat neq)%Z -> (0 <= i < mx)%Z -> d' m i = d m i) /\ c' == c
  | _, _ => False
  end.
Proof.
  intros (r & tf & HM & HR) HN. assert (Hn : (1 <= mx)%Z) by (destruct HF as (_ & _ & _ & _ & _ & (_ & _ & W) & _); exact W).
  destruct serial_dq_ok as (qbc & auxbc & Hq & Hx & ->). unfold par_dq. rewrite HM.
  destruct (kernel_speed C (r mx) tf qbc auxbc HN ltac:(lia)) as (d & c & EK & K0 & K1 & K2). rewrite EK.
  assert (L : forall b, In b bs -> exists qb' ab' d1 c1, local_dq M C q' aux' auxbc0' b = DQ d1 c1 /\ 0 <= c1 /\
     (forall m i, (0 <= m < Z.of_nat neq)%Z -> (0 <= i < snd b - fst b)%Z -> d1 m i = d m (i + fst b)%Z) /\
     (forall p i, (1 <= i <= snd b - fst b + 1)%Z -> kspd C (r (snd b - fst b)%Z) qb' ab' p i = kspd C (r mx) qbc auxbc p (i + fst b)%Z) /\
     (forall p i, (0 <= p < Z.of_nat (c_nw C))%Z -> (1 <= i <= snd b - fst b + 1)%Z ->
        c_dt C / c_dx C * kspd C (r (snd b - fst b)%Z) qb' ab' p i <= c1 /\ - (c_dt C / c_dx C) * kspd C (r (snd b - fst b)%Z) qb' ab' p i <= c1) /\
     (c1 = 0 \/ exists p i, (0 <= p < Z.of_nat (c_nw C))%Z /\ (1 <= i <= snd b - fst b + 1)%Z /\
        (c1 = c_dt C / c_dx C * kspd C (r (snd b - fst b)%Z) qb' ab' p i \/ c1 = - (c_dt C / c_dx C) * kspd C (r (snd b - fst b)%Z) qb' ab' p i))).
  { intros b Hb. destruct (local_dq_ok qbc auxbc b Hq Hx Hb) as (qb' & ab' & HS & ->). pose proof (box_in b Hb) as HB. rewrite HM.
    pose proof (f_window C b Hg HB HC qbc auxbc qb' ab' HS r tf HR) as W.
    destruct (kernel_speed (with_bc C (local_bc (c_bc C) b)) (r (snd b - fst b)%Z) tf qb' ab' HN) as (d1 & c1 & E1 & B0 & B1 & B2); [cbn [with_bc c_bc local_bc ncells]; lia|].
    rewrite E1, EK in W. exists qb', ab', d1, c1. split; [exact E1|]. split; [exact B0|]. split; [exact W|]. split; [|split; [exact B1|exact B2]].
    intros p i Hi. unfold kspd. apply (f_edge_rps C b Hg HB qbc auxbc qb' ab' HS r HR i Hi). }
  destruct (dq_collect_all d (fun m => (0 <= m < Z.of_nat neq)%Z) (map (fun b => (b, local_dq M C q' aux' auxbc0' b)) bs)) as (A & c' & -> & PA & PC).
  { intros b r0 Hin. apply in_map_iff in Hin. destruct Hin as (b' & Eb & Hb). injection Eb as -> <-.
    destruct (L b Hb) as (qb' & ab' & d1 & c1 & -> & _ & W & _). exists d1, c1. split; [reflexivity|]. intros m i Hm Hi. rewrite W by lia. f_equal. lia. }
  destruct PC as (P0 & P1 & P2).
  { intros b a c1 Hin. apply in_map_iff in Hin. destruct Hin as (b' & Eb & Hb). injection Eb as -> Eb.
    destruct (L b Hb) as (qb' & ab' & d1 & c2 & E & B0 & _). rewrite E in Eb. injection Eb as _ <-. exact B0. }
  split.
  - intros m i Hm Hi. apply PA; [exact Hm|]. destruct (box_of i Hi) as (b & Hb & Hi'). exists b, (local_dq M C q' aux' auxbc0' b).
    split; [|exact Hi']. apply in_map_iff. exists b. auto.
  - apply Qle_antisym.
    + destruct P2 as [-> | (b & a & Hin)]; [exact K0|]. apply in_map_iff in Hin. destruct Hin as (b' & Eb & Hb). injection Eb as -> Eb.
      destruct (L b Hb) as (qb' & ab' & d1 & c2 & E & B0 & _ & BS & _ & B2). rewrite E in Eb. injection Eb as _ <-. pose proof (box_in b Hb) as HB.
      destruct B2 as [-> | (p & i & Hp & Hi & Hc)]; [exact K0|]. rewrite (BS p i Hi) in Hc.
      destruct (K1 p (i + fst b)%Z Hp ltac:(lia)) as [Ka Kb]. destruct Hc as [-> | ->]; assumption.
    + destruct K2 as [-> | (p & i & Hp & Hi & Hc)]; [exact P0|].
      destruct (box_of (Z.min (i - 1) (mx - 1)) ltac:(lia)) as (b & Hb & Hi'). pose proof (box_in b Hb) as HB.
      destruct (L b Hb) as (qb' & ab' & d1 & c2 & E & B0 & _ & BS & B1 & _).
      assert (Hc2 : c2 <= c'). { eapply P1. apply in_map_iff. exists b. split; [|exact Hb]. rewrite E. reflexivity. }
      destruct (B1 p (i - fst b)%Z Hp ltac:(lia)) as [Ba Bb]. rewrite BS in Ba, Bb by lia. replace (i - fst b + fst b)%Z with i in Ba, Bb by lia.
      destruct Hc as [Hc | Hc]; rewrite Hc; [exact (Qle_trans _ _ _ Ba Hc2)|exact (Qle_trans _ _ _ Bb Hc2)].
Qed.
End All.
