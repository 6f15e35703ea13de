(** Proofs about the SharpClaw semi-discretisation in two and three dimensions. *)
From Coq Require Import FinFun.
From Verif Require Import Base BCModel BCSpec BCProofs LimiterModel Classic1DModel Classic1DSpec Classic1DProofs
  Classic1DProofs2 ParallelProofs2 SharpModel SharpSpec MultiModel WenoModel WenoProofs SemiModel SemiSpec SemiProofs
  SweepModel SweepSpec SweepProofs SweepProofs3 MSemiModel MSemiSpec.

(** ** The slices *)
Lemma cart_first_in rs l : In l (cart_first rs) <-> Forall2 (fun x r => In x r) l rs.
Proof.
  revert l. induction rs as [|r rs IH]; intros l; cbn [cart_first].
  - split; [intros [<-|[]]; constructor|]. intros H. inversion H. left. reflexivity.
  - rewrite in_flat_map. split.
    + intros (x & Hx & H). apply in_map_iff in H. destruct H as (l' & <- & Hl). constructor; [exact Hx|]. apply IH. exact Hl.
    + intros H. inversion H as [|x r' l' rs' Hx Hl]; subst. exists x. split; [exact Hx|]. apply in_map_iff. exists l'. split; [reflexivity|]. apply IH. exact Hl.
Qed.
Lemma nodup_app {A} (l l' : list A) : NoDup l -> NoDup l' -> (forall x, In x l -> ~ In x l') -> NoDup (l ++ l').
Proof.
  induction l as [|x l IH]; intros H1 H2 H; cbn [app]; [exact H2|]. inversion H1; subst. constructor.
  - rewrite in_app_iff. intros [Hi|Hi]; [contradiction|]. exact (H x (or_introl eq_refl) Hi).
  - apply IH; try assumption. intros y Hy. apply H. right. exact Hy.
Qed.
Lemma cart_first_nodup rs : Forall (@NoDup Z) rs -> NoDup (cart_first rs).
Proof.
  induction rs as [|r rs IH]; intros H; cbn [cart_first]; [repeat constructor; simpl; tauto|].
  apply Forall_cons_iff in H. destruct H as [Hr Hrs]. specialize (IH Hrs).
  induction Hr as [|x r Hx Hr IHr]; cbn [flat_map]; [constructor|]. apply nodup_app.
  - apply Injective_map_NoDup; [|exact IH]. intros a b E. congruence.
  - exact IHr.
  - intros l Hl Hl'. apply in_map_iff in Hl. destruct Hl as (a & <- & _). apply in_flat_map in Hl'.
    destruct Hl' as (y & Hy & H). apply in_map_iff in H. destruct H as (b & E & _). injection E as -> _. contradiction.
Qed.
Lemma semi_lines_nodup d ng ns : NoDup (semi_lines d ng ns).
Proof.
  unfold semi_lines. apply cart_first_nodup. generalize 0%nat as k. induction ns as [|n ns IH]; intros k; cbn [lines_from]; constructor.
  - destruct (Nat.eqb k d); [repeat constructor; simpl; tauto|apply zrange_nodup].
  - apply IH.
Qed.
Lemma semi_lines_in d ng ns b : Forall (fun n => 0 <= n)%Z ns ->
  In b (semi_lines d ng ns) <->
  length b = length ns /\ forall j, (j < length ns)%nat ->
    if Nat.eqb j d then get j b = 0%Z
    else (Z.of_nat ng - 1 <= get j b < Z.of_nat ng + nth j ns 0 + 1)%Z.
Proof.
  intros Hn. rewrite <- (lines_in d ng 1 ns b) by (assumption || lia). unfold semi_lines, lines. rewrite cart_first_in, cart_in. reflexivity.
Qed.

(** ** Ghost values along one dimension *)
Section G.
Definition flip (D : dimbc) (c i : Z) (v : Q) : Q :=
  if (Z.eqb c (reflect D) && behind_wall (q_lo D) (q_hi D) (ncells D) i)%bool then - v else v.
Definition src (D : dimbc) (i : Z) : Z := source_cell (q_lo D) (q_hi D) (ncells D) i.
Lemma ghost_cons D Ds q c i pos :
  q_ghost_value Q Qopp (D :: Ds) q c (i :: pos) = q_ghost_value Q Qopp Ds (fun c l => flip D c i (q c (src D i :: l))) c pos.
Proof.
  unfold q_ghost_value. cbn [combine rev map fst snd]. rewrite fold_right_app. cbn [fold_right fst snd]. reflexivity.
Qed.
Lemma ghost_flip Ds : forall D i q c pos,
  q_ghost_value Q Qopp Ds (fun c l => flip D c i (q c l)) c pos = flip D c i (q_ghost_value Q Qopp Ds q c pos).
Proof.
  intros D i q c pos. unfold q_ghost_value. generalize (map (fun p => source_cell (q_lo (fst p)) (q_hi (fst p)) (ncells (fst p)) (snd p)) (combine Ds pos)) as s.
  intros s. generalize (rev (combine Ds pos)) as l. generalize (q c s) as v. clear. intros v l.
  induction l as [|p l IH]; cbn [fold_right]; [reflexivity|]. rewrite IH. unfold flip.
  destruct (Z.eqb c (reflect D) && _)%bool, (Z.eqb c (reflect (fst p)) && _)%bool; reflexivity.
Qed.
Lemma ghost_ext Ds : forall (q q' : arr Q) c pos, (forall l, q c l = q' c l) ->
  q_ghost_value Q Qopp Ds q c pos = q_ghost_value Q Qopp Ds q' c pos.
Proof. intros q q' c pos H. unfold q_ghost_value. rewrite H. reflexivity. Qed.
Lemma src_in ng has_aux neq D i : fit_dim ng has_aux neq D -> (- Z.of_nat ng <= i < ncells D + Z.of_nat ng)%Z -> (0 <= src D i < ncells D)%Z.
Proof. intros (_ & _ & _ & S1 & S2 & W & _) Hi. apply (source_in ng); assumption. Qed.
Lemma flip_in D c i v : (0 <= i < ncells D)%Z -> flip D c i v = v.
Proof.
  intros Hi. unfold flip, behind_wall. replace (Z.ltb i 0) with false by lia. replace (Z.leb (ncells D) i) with false by lia.
  rewrite andb_false_r. reflexivity.
Qed.
Lemma src_id D i : (0 <= i < ncells D)%Z -> src D i = i.
Proof. intros Hi. unfold src, source_cell. replace (Z.ltb i 0) with false by lia. replace (Z.leb (ncells D) i) with false by lia. reflexivity. Qed.
Lemma ghost_one D (q : arr Q) c i : q_ghost_value Q Qopp [D] q c [i] = flip D c i (q c [src D i]).
Proof. reflexivity. Qed.

(** The ghost value at a position is the ghost value along dimension d of the line of ghost values through it. *)
Lemma ghost_line ng has_aux neq d : forall Ds D q c pos, nth_error Ds d = Some D -> fit_dim ng has_aux neq D ->
  length pos = length Ds -> (- Z.of_nat ng <= get d pos < ncells D + Z.of_nat ng)%Z ->
  q_ghost_value Q Qopp Ds q c pos =
  flip D c (get d pos) (q_ghost_value Q Qopp Ds q c (put d (src D (get d pos)) pos)).
Proof.
  induction d as [|d IH]; intros Ds D q c pos HD HF HL Hi; destruct Ds as [|D0 Ds]; try discriminate; destruct pos as [|i pos]; try discriminate.
  - cbn [nth_error] in HD. injection HD as ->. cbn [get put] in *. rewrite !ghost_cons.
    pose proof (src_in _ _ _ D i HF Hi) as Hs.
    rewrite (ghost_flip Ds D i (fun c l => q c (src D i :: l))). f_equal. apply ghost_ext. intros l. cbv beta.
    rewrite flip_in by exact Hs. rewrite (src_id D (src D i)) by exact Hs. reflexivity.
  - cbn [nth_error get put length] in *. rewrite !ghost_cons. apply (IH Ds D _ c pos HD HF); [lia|exact Hi].
Qed.
Lemma aux_line ng has_aux neq d : forall Ds D (q : arr Q) c pos, nth_error Ds d = Some D -> fit_dim ng has_aux neq D -> has_aux = true ->
  length pos = length Ds -> (- Z.of_nat ng <= get d pos < ncells D + Z.of_nat ng)%Z ->
  aux_ghost_value Q Ds q c pos = aux_ghost_value Q Ds q c (put d (source_cell (a_lo D) (a_hi D) (ncells D) (get d pos)) pos).
Proof.
  unfold aux_ghost_value.
  induction d as [|d IH]; intros Ds D q c pos HD HF HA HL Hi; destruct Ds as [|D0 Ds]; try discriminate; destruct pos as [|i pos]; try discriminate.
  - cbn [nth_error] in HD. injection HD as ->. cbn [get put combine map fst snd] in *. f_equal. f_equal.
    destruct HF as (_ & _ & _ & _ & _ & _ & HX). destruct (HX HA) as (S1 & S2 & Wd).
    pose proof (source_in ng _ _ _ i S1 S2 Wd Hi) as Hs. revert Hs. generalize (source_cell (a_lo D) (a_hi D) (ncells D) i) as s. intros s Hs.
    unfold source_cell. replace (Z.ltb s 0) with false by lia. replace (Z.leb (ncells D) s) with false by lia. reflexivity.
  - cbn [nth_error get put length combine map fst snd] in *. apply (IH Ds D (fun c l => q c (_ :: l)) c pos HD HF HA); [lia|exact Hi].
Qed.
End G.

(** ** One slice depends on the edge values next to its faces only *)
Lemma f_semi_ext tf C e e' a a' :
  (1 <= c_ng C)%nat ->
  (forall k, c_capa C = Some k -> (0 <= k < Z.of_nat (c_naux C))%Z) ->
  (forall m i, (0 <= m < Z.of_nat (c_naux C))%Z -> (1 - Z.of_nat (c_ng C) <= i <= ncells (c_bc C) + Z.of_nat (c_ng C))%Z -> a m i = a' m i) ->
  (forall m, (0 <= m < Z.of_nat (c_neq C))%Z ->
    (forall i, (1 <= i <= ncells (c_bc C) + 1)%Z -> fst e m i = fst e' m i) /\ (forall i, (0 <= i <= ncells (c_bc C))%Z -> snd e m i = snd e' m i)) ->
  (forall m i, (1 <= i <= ncells (c_bc C))%Z -> fst (f_semi tf C e a) m i = fst (f_semi tf C e' a') m i) /\
  (c_capa C = None -> snd (f_semi tf C e a) = snd (f_semi tf C e' a')).
Proof.
  intros Hg Hk Ha He.
  assert (EL : forall i, (1 <= i <= ncells (c_bc C) + 1)%Z -> vec (c_neq C) (fst e) i = vec (c_neq C) (fst e') i).
  { intros i Hi. apply vec_ext. intros k Hkx. apply He; assumption. }
  assert (ER : forall i, (0 <= i <= ncells (c_bc C))%Z -> vec (c_neq C) (snd e) i = vec (c_neq C) (snd e') i).
  { intros i Hi. apply vec_ext. intros k Hkx. apply He; assumption. }
  assert (EA : forall i, (0 <= i <= ncells (c_bc C) + 1)%Z -> vec (c_naux C) a i = vec (c_naux C) a' i).
  { intros i Hi. apply vec_ext. intros k Hkx. apply Ha; [assumption|lia]. }
  assert (RR : forall i, (1 <= i <= ncells (c_bc C) + 1)%Z ->
    c_rp C (vec (c_neq C) (snd e) (i + -1)) (vec (c_neq C) (fst e) (i + -1 + 1)) (vec (c_naux C) a (i + -1)) (vec (c_naux C) a (i + -1 + 1)) =
    c_rp C (vec (c_neq C) (snd e') (i + -1)) (vec (c_neq C) (fst e') (i + -1 + 1)) (vec (c_naux C) a' (i + -1)) (vec (c_naux C) a' (i + -1 + 1))).
  { intros i Hi. rewrite EL, ER, !EA by lia. reflexivity. }
  split.
  - intros m i Hi.
    assert (D : sharp_dtdx C a i = sharp_dtdx C a' i).
    { unfold sharp_dtdx. destruct (c_capa C) as [k|] eqn:Ek; [|reflexivity]. rewrite Ha; [reflexivity|apply Hk; reflexivity|lia]. }
    unfold f_semi. destruct tf as [tf|]; cbn [fst edge_rps cell_rps apdq amdq]; rewrite !in_slice_true by lia; rewrite D, !RR, EL, ER, EA by lia; reflexivity.
  - intros HN.
    assert (K : f_cfl (c_nw C) (ncells (c_bc C)) (sharp_dtdx C a) (spd (edge_rps (c_rp C) (c_neq C) (c_naux C) (-1) e a)) =
                f_cfl (c_nw C) (ncells (c_bc C)) (sharp_dtdx C a') (spd (edge_rps (c_rp C) (c_neq C) (c_naux C) (-1) e' a'))).
    { unfold f_cfl, sharp_dtdx. rewrite HN. generalize (seq 0 (c_nw C)) as ks. generalize 0 as c. intros c ks. revert c.
      induction ks as [|k ks IH]; intros c; cbn [fold_left]; [reflexivity|]. rewrite <- IH. f_equal.
      assert (KK : forall l c, (forall i, In i l -> (1 <= i <= ncells (c_bc C) + 1)%Z) ->
        fold_left (fun c i => pymax3 c (c_dt C / c_dx C * spd (edge_rps (c_rp C) (c_neq C) (c_naux C) (-1) e a) (Z.of_nat k) i)
                                       (- (c_dt C / c_dx C) * spd (edge_rps (c_rp C) (c_neq C) (c_naux C) (-1) e a) (Z.of_nat k) i)) l c =
        fold_left (fun c i => pymax3 c (c_dt C / c_dx C * spd (edge_rps (c_rp C) (c_neq C) (c_naux C) (-1) e' a') (Z.of_nat k) i)
                                       (- (c_dt C / c_dx C) * spd (edge_rps (c_rp C) (c_neq C) (c_naux C) (-1) e' a') (Z.of_nat k) i)) l c).
      { induction l as [|i l IHl]; intros c0 Hl; cbn [fold_left]; [reflexivity|]. cbn [edge_rps spd]. rewrite RR by (apply Hl; left; reflexivity).
        apply IHl. intros x Hx. apply Hl. right. exact Hx. }
      apply KK. intros i Hi. apply zrange_in in Hi. lia. }
    unfold f_semi. destruct tf as [tf|]; exact K.
Qed.

(** dq of a slice scales with the time step. *)
Lemma f_semi_scales tf C e a m i : fst (f_semi tf C e a) m i == c_dt C * fst (f_semi tf (unit_dt C) e a) m i.
Proof.
  assert (D : forall j, sharp_dtdx C a j == c_dt C * sharp_dtdx (unit_dt C) a j).
  { intros j. unfold sharp_dtdx. cbn. destruct (c_capa C); unfold Qdiv; ring. }
  unfold f_semi. cbn [unit_dt c_neq c_naux c_bc c_rp].
  destruct tf as [tf|]; cbn [fst]; destruct (in_slice _ _ i); try rewrite D; ring.
Qed.

Lemma dims_nth S d D : In (d, D) (dims S) <-> nth_error (n_bcs S) d = Some D.
Proof.
  unfold dims.
  assert (K : forall (l : list dimbc) k, In (d, D) (combine (seq k (length l)) l) <-> (k <= d)%nat /\ nth_error l (d - k) = Some D).
  { induction l as [|x l IH]; intros k; cbn [length seq combine In].
    - split; [intros []|]. intros [_ H]. destruct (d - k)%nat; discriminate.
    - rewrite IH. split.
      + intros [E|[H1 H2]].
        * injection E as -> ->. rewrite Nat.sub_diag. split; [lia|reflexivity].
        * split; [lia|]. replace (d - k)%nat with (Datatypes.S (d - Datatypes.S k))%nat by lia. exact H2.
      + intros [H1 H2]. destruct (Nat.eq_dec d k) as [->|N].
        * left. rewrite Nat.sub_diag in H2. cbn [nth_error] in H2. congruence.
        * right. split; [lia|]. replace (d - k)%nat with (Datatypes.S (d - Datatypes.S k))%nat in H2 by lia. exact H2. }
  rewrite K. rewrite Nat.sub_0_r. split; [tauto|]. intros H. split; [lia|exact H].
Qed.

(** ** The sums over the slices *)
Section S.
Context {W : Type}.
Variable recon : nat -> W -> (Z -> Z -> Q) -> (Z -> Z -> Q) -> W * edges.
Variable tfluct : option (nat -> list Q -> list Q -> list Q -> list Q -> Z -> Q).
Variable S : msettings.
Variables auxbc qbc : arr Q.
Hypothesis Hg : (1 <= n_ng S)%nat.
Hypothesis Hk : mcapa_in_aux S.
Hypothesis HD : determined S recon.

Definition at_line (w : W) (d : nat) (D : dimbc) (base : list Z) : (Z -> Z -> Q) * Q :=
  f_semi (option_map (fun tf => tf d) tfluct) (slice_settings S d D)
    (snd (recon d w (slice (n_ng S) d base qbc) (slice (n_ng S) d base auxbc))) (slice (n_ng S) d base auxbc).
Lemma at_line_any w w' d D base : In (d, D) (dims S) ->
  (forall m i, (1 <= i <= ncells D)%Z -> fst (at_line w d D base) m i = fst (at_line w' d D base) m i) /\
  (n_capa S = None -> snd (at_line w d D base) = snd (at_line w' d D base)).
Proof.
  intros Hd. unfold at_line.
  apply (f_semi_ext (option_map (fun tf => tf d) tfluct) (slice_settings S d D)); cbn [slice_settings c_ng c_capa c_naux c_neq c_bc];
  [exact Hg|exact Hk|reflexivity|apply (HD d D Hd); reflexivity].
Qed.

Lemma body_form st d D base : semi_body recon tfluct S d D auxbc qbc st base =
  (fst (recon d (fst (fst st)) (slice (n_ng S) d base qbc) (slice (n_ng S) d base auxbc)),
   fun m ix => let i := (get d ix - Z.of_nat (n_ng S) + 1)%Z in
     if (zlist_eqb (put d 0 ix) base && in_slice 1 (ncells D + 1) i)%bool
     then snd (fst st) m ix + fst (at_line (fst (fst st)) d D base) m i else snd (fst st) m ix,
   pymax (snd st) (snd (at_line (fst (fst st)) d D base))).
Proof.
  destruct st as [[w dq] cfl]. unfold semi_body, at_line. cbn [fst snd].
  destruct (recon d w _ _) as [w' e]. cbn [fst snd]. destruct (f_semi _ _ _ _) as [d1 c1]. reflexivity.
Qed.
Lemma sweep_sum w d D m ix : In (d, D) (dims S) -> forall ls st, NoDup ls ->
  (1 <= get d ix - Z.of_nat (n_ng S) + 1 <= ncells D)%Z ->
  (In (put d 0 ix) ls ->
   snd (fst (fold_left (semi_body recon tfluct S d D auxbc qbc) ls st)) m ix =
   snd (fst st) m ix + fst (at_line w d D (put d 0 ix)) m (get d ix - Z.of_nat (n_ng S) + 1)%Z) /\
  (~ In (put d 0 ix) ls ->
   snd (fst (fold_left (semi_body recon tfluct S d D auxbc qbc) ls st)) m ix = snd (fst st) m ix).
Proof.
  intros Hd ls. induction ls as [|b ls IH]; intros st HN Hi; cbn [fold_left In]; [split; [tauto|reflexivity]|].
  inversion HN as [|b' ls' Hb HN']; subst. specialize (IH (semi_body recon tfluct S d D auxbc qbc st b) HN' Hi).
  destruct IH as [I1 I2]. rewrite body_form in I1, I2 |- *. cbn [fst snd] in I1, I2 |- *. cbv zeta in I1, I2.
  rewrite in_slice_true in I1, I2 by lia. rewrite andb_true_r in I1, I2. split.
  - intros H. destruct (list_eq_dec Z.eq_dec (put d 0%Z ix) b) as [E|N].
    + rewrite I2 by (rewrite E; exact Hb). rewrite E, zlist_eqb_refl.
      f_equal. apply (proj1 (at_line_any _ _ d D b Hd)). lia.
    + destruct H as [H|H]; [congruence|]. rewrite (I1 H). rewrite (zlist_eqb_neq _ _ N). reflexivity.
  - intros H. rewrite I2 by tauto. rewrite zlist_eqb_neq; [reflexivity|]. intros E. apply H. left. congruence.
Qed.
Lemma sweeps_sum w m ix : Forall (fun n => 0 <= n)%Z (map ncells (n_bcs S)) ->
  length ix = length (n_bcs S) -> (forall j D, In (j, D) (dims S) -> (Z.of_nat (n_ng S) <= get j ix < Z.of_nat (n_ng S) + ncells D)%Z) ->
  forall ds, (forall x, In x ds -> In x (dims S)) -> forall st,
  snd (fst (fold_left (semi_sweep recon tfluct S auxbc qbc) ds st)) m ix ==
  snd (fst st) m ix + qsum (map (fun dD => fst (at_line w (fst dD) (snd dD) (put (fst dD) 0 ix)) m (get (fst dD) ix - Z.of_nat (n_ng S) + 1)%Z) ds).
Proof.
  intros HN HL HB ds. induction ds as [|[d D] ds IH]; intros Hds st; cbn [fold_left map]; [cbn [qsum fold_right]; unfold qsum; cbn; ring|].
  rewrite IH by (intros x Hx; apply Hds; right; exact Hx).
  pose proof (Hds (d, D) (or_introl eq_refl)) as Hd. pose proof (HB d D Hd) as Hb.
  destruct (sweep_sum w d D m ix Hd (semi_lines d (n_ng S) (map ncells (n_bcs S))) st (semi_lines_nodup _ _ _)) as [I1 _].
  { lia. }
  unfold semi_sweep at 1. cbn [fst snd]. rewrite I1.
  - change (qsum (?x :: ?l)) with (x + qsum l). cbn [fst snd]. ring.
  - apply semi_lines_in; [exact HN|]. split; [rewrite put_length, map_length; exact HL|].
    intros j Hj. destruct (Nat.eqb_spec j d) as [E|N].
    + subst j. apply get_put. rewrite map_length in Hj. lia.
    + rewrite get_put_other by congruence. rewrite map_length in Hj.
      destruct (nth_error (n_bcs S) j) as [Dj|] eqn:Ej; [|apply nth_error_None in Ej; lia].
      pose proof (HB j Dj (proj2 (dims_nth S j Dj) Ej)) as Hbj.
      rewrite (nth_indep (map ncells (n_bcs S)) 0%Z (ncells Dj)) by (rewrite map_length; exact Hj).
      rewrite (map_nth ncells). rewrite (nth_error_nth (n_bcs S) j Dj Ej). lia.
Qed.

(** The Courant number is the largest one of the slices. *)
Lemma lines_cfl w d D : In (d, D) (dims S) -> n_capa S = None -> forall ls st,
  let c := snd (fold_left (semi_body recon tfluct S d D auxbc qbc) ls st) in
  (snd st <= c) /\ (forall b, In b ls -> snd (at_line w d D b) <= c) /\
  (c == snd st \/ exists b, In b ls /\ c == snd (at_line w d D b)).
Proof.
  intros Hd HN ls. induction ls as [|b ls IH]; intros st; cbn [fold_left]; [cbv zeta; split; [lra|]; split; [intros b []|left; reflexivity]|].
  specialize (IH (semi_body recon tfluct S d D auxbc qbc st b)). cbv zeta in IH |- *. destruct IH as (I1 & I2 & I3).
  assert (E : snd (semi_body recon tfluct S d D auxbc qbc st b) = pymax (snd st) (snd (at_line w d D b))).
  { rewrite body_form. cbn [snd]. f_equal. apply (proj2 (at_line_any _ _ d D b Hd) HN). }
  rewrite E in I1, I3.
  assert (M : snd st <= pymax (snd st) (snd (at_line w d D b)) /\ snd (at_line w d D b) <= pymax (snd st) (snd (at_line w d D b)) /\
    (pymax (snd st) (snd (at_line w d D b)) = snd st \/ pymax (snd st) (snd (at_line w d D b)) = snd (at_line w d D b))).
  { unfold pymax. destruct (qltb (snd st) (snd (at_line w d D b))) eqn:Ec.
    - apply qltb_lt in Ec. split; [lra|]. split; [lra|]. right. reflexivity.
    - apply qltb_ge in Ec. split; [lra|]. split; [lra|]. left. reflexivity. }
  destruct M as (M1 & M2 & M3). split; [lra|]. split.
  - intros b' [<-|Hb']; [lra|]. apply I2. exact Hb'.
  - destruct I3 as [I3|(b' & Hb' & I3)].
    + destruct M3 as [M3|M3]; rewrite M3 in I3; [left; exact I3|]. right. exists b. split; [left; reflexivity|exact I3].
    + right. exists b'. split; [right; exact Hb'|exact I3].
Qed.
Lemma sweeps_cfl w : n_capa S = None -> forall ds, (forall x, In x ds -> In x (dims S)) -> forall st,
  let c := snd (fold_left (semi_sweep recon tfluct S auxbc qbc) ds st) in
  (snd st <= c) /\
  (forall d D b, In (d, D) ds -> In b (semi_lines d (n_ng S) (map ncells (n_bcs S))) -> snd (at_line w d D b) <= c) /\
  (c == snd st \/ exists d D b, In (d, D) ds /\ In b (semi_lines d (n_ng S) (map ncells (n_bcs S))) /\ c == snd (at_line w d D b)).
Proof.
  intros HN ds. induction ds as [|[d D] ds IH]; intros Hds st; cbn [fold_left].
  { cbv zeta. split; [lra|]. split; [intros d D b []|left; reflexivity]. }
  specialize (IH (fun x Hx => Hds x (or_intror Hx)) (semi_sweep recon tfluct S auxbc qbc st (d, D))). cbv zeta in IH |- *.
  destruct IH as (I1 & I2 & I3).
  pose proof (lines_cfl w d D (Hds (d, D) (or_introl eq_refl)) HN (semi_lines d (n_ng S) (map ncells (n_bcs S))) st) as L. cbv zeta in L.
  destruct L as (L1 & L2 & L3).
  assert (ES : semi_sweep recon tfluct S auxbc qbc st (d, D) = fold_left (semi_body recon tfluct S d D auxbc qbc) (semi_lines d (n_ng S) (map ncells (n_bcs S))) st) by reflexivity.
  rewrite <- ES in L1, L2, L3. clear ES.
  split; [lra|]. split.
  - intros d' D' b [E|H] Hb; [injection E as <- <-; specialize (L2 b Hb); lra|apply (I2 d' D' b H Hb)].
  - destruct I3 as [I3|(d' & D' & b & H1 & H2 & H3)].
    + destruct L3 as [L3|(b & Hb & L3)]; [left; lra|]. right. exists d, D, b. split; [left; reflexivity|]. split; [exact Hb|lra].
    + right. exists d', D', b. split; [right; exact H1|]. split; [exact H2|exact H3].
Qed.
End S.
