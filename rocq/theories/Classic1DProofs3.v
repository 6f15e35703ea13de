(** Proofs about the 1D classic solver, part 3: whole steps, local limiters, stencil, agreement of the
    two kernels. *)
From Verif Require Import Base BCModel BCSpec BCProofs LimiterModel LimiterSpec LimiterProofs
  Classic1DModel Classic1DSpec Classic1DProofs Classic1DProofs2.

Section S.
Variable pow : Q -> Q -> Q.
Variable undef : Q -> Q -> Z -> Q.
Variable C : settings.
Notation neq := (c_neq C).
Notation nw := (c_nw C).
Notation ng := (Z.of_nat (c_ng C)).
Notation mx := (ncells (c_bc C)).
Notation fac := (fac pow undef C).
Notation dtdx_of := (dtdx_of C).
Notation rps := (rps C).
Notation numflux := (numflux pow undef C).
Notation same_waves := (same_waves C).

(** ** Steps *)
Definition has_aux : bool := Nat.ltb 0 (c_naux C).
Lemma step_ok L q aux qbc0 auxbc0 :
  (1 <= c_ng C)%nat -> fit_dim (c_ng C) has_aux (Z.of_nat neq) (c_bc C) ->
  exists qbc auxbc : Z -> Z -> Q,
  (forall m i, (- ng <= i < mx + ng)%Z -> qbc m (i + ng)%Z = q_ghost_value Q Qopp [c_bc C] q m [i]) /\
  (has_aux = true -> forall m i, (- ng <= i < mx + ng)%Z -> auxbc m (i + ng)%Z = aux_ghost_value Q [c_bc C] aux m [i]) /\
  step_hyperbolic pow undef L C q aux qbc0 auxbc0 =
    match kernel pow undef L C qbc auxbc with
    | None => Stopped
    | Some (q', cfl) => Stepped (fun m i => q' m (i + ng)%Z) cfl
    end.
Proof.
  intros Hg HF. unfold step_hyperbolic.
  destruct (apply_bcs_at Q Qopp (c_ng C) has_aux (c_funs C) (Z.of_nat neq) [c_bc C] q aux qbc0 auxbc0 Hg) as (qb & xb & E & A & B & _).
  { constructor; [exact HF|constructor]. }
  fold has_aux. rewrite E. exists (fun m i => qb m [i]), (fun m i => xb m [i]). split; [|split; [|reflexivity]].
  - intros m i Hi. apply (A m [i]). simpl. auto.
  - intros Ha m i Hi. apply (B Ha m [i]). simpl. auto.
Qed.

Lemma kernel_stopped L qbc auxbc : kernel pow undef L C qbc auxbc = None ->
  L = Fortran /\ exists k i, c_capa C = Some k /\ (0 <= i < mx + 2 * ng)%Z /\ auxbc k i <= 0.
Proof.
  destruct L; cbn [kernel]; [discriminate|]. destruct (f_dtdx _ _ _ _ _) as [d|] eqn:E.
  - destruct (f_kernel _ _ _ _ _ _ _ _ _ _). discriminate.
  - intros _. split; [reflexivity|]. unfold f_dtdx in E. destruct (c_capa C) as [k|]; cbn [option_map] in E; [|discriminate].
    destruct (forallb _ _) eqn:F; [discriminate|]. apply not_true_iff_false in F. rewrite forallb_forall in F.
    assert (X : Exists (fun i => ~ qltb 0 (auxbc k (i + ng - 1)%Z) = true) (zrange (1 - ng) (Z.to_nat (mx + 2 * ng)))).
    { apply neg_Forall_Exists_neg; [intros; destruct (qltb _ _); auto|]. rewrite Forall_forall. exact F. }
    apply Exists_exists in X. destruct X as (i & Hi & Hn). apply zrange_in in Hi.
    exists k, (i + ng - 1)%Z. split; [reflexivity|]. split; [lia|].
    apply not_true_iff_false in Hn. apply qltb_ge in Hn. exact Hn.
Qed.

Lemma ghost_q_periodic q m i : periodic_bc (c_bc C) ->
  (- mx <= i < 2 * mx)%Z -> q_ghost_value Q Qopp [c_bc C] q m [i] = q m [(i mod mx)%Z].
Proof.
  intros (A1 & A2 & _) Hi. unfold q_ghost_value. cbn [combine map rev app fold_right fst snd].
  unfold behind_wall, source_cell. rewrite A1, A2, !andb_false_r. change (false || false)%bool with false. rewrite ?andb_false_r.
  destruct (Z.ltb_spec i 0); [|destruct (Z.leb_spec mx i)].
  - do 2 f_equal. apply (Z.mod_unique_pos i mx (-1)); lia.
  - do 2 f_equal. apply (Z.mod_unique_pos i mx 1); lia.
  - rewrite Z.mod_small by lia. reflexivity.
Qed.
Lemma ghost_aux_periodic aux m i : periodic_bc (c_bc C) ->
  (- mx <= i < 2 * mx)%Z -> aux_ghost_value Q [c_bc C] aux m [i] = aux m [(i mod mx)%Z].
Proof.
  intros (_ & _ & A1 & A2 & _) Hi. unfold aux_ghost_value. cbn [combine map fst snd].
  unfold source_cell. rewrite A1, A2.
  destruct (Z.ltb_spec i 0); [|destruct (Z.leb_spec mx i)].
  - do 2 f_equal. apply (Z.mod_unique_pos i mx (-1)); lia.
  - do 2 f_equal. apply (Z.mod_unique_pos i mx 1); lia.
  - rewrite Z.mod_small by lia. reflexivity.
Qed.
Lemma periodic_fit : periodic_bc (c_bc C) -> (1 <= mx)%Z -> (ng <= mx)%Z ->
  fit_dim (c_ng C) has_aux (Z.of_nat neq) (c_bc C).
Proof.
  intros (A1 & A2 & A3 & A4 & A5 & A6) H1 H2. unfold fit_dim, standard, wide. rewrite A1, A2, A3, A4.
  intuition (auto; try discriminate; try lia).
Qed.

(** ** Local limiters *)
Definition facl (L : lang) (d : Z -> Q) (R : rpdata) (mw j : Z) : Q :=
  match L with
  | Python =>
      if any_limiter nw (c_mthlim C) then
        match limiter_functions pow (c_mthlim C mw) with
        | None => 1
        | Some f => if qeqb (norm2 neq (wave R) mw j) 0 then 1
                    else nth 0 (f [ratio neq (wave R) (spd R) mw j] [local_cfl (spd R) d mw j]) 0
        end
      else 1
  | Fortran => fac Fortran d R mw j
  end.
Lemma nth_of_nth_error (l l' : list Q) k k' d : nth_error l k = nth_error l' k' -> nth k l d = nth k' l' d.
Proof. intros H. rewrite <- !nth_default_eq. unfold nth_default. rewrite H. reflexivity. Qed.
Lemma nth_error_repeat' {A} (x : A) n k : (k < n)%nat -> nth_error (repeat x n) k = Some x.
Proof. intros H. rewrite nth_error_repeat by exact H. reflexivity. Qed.
Lemma local_singleton n f r c k x y : limiter_functions pow n = Some f -> cell_by_cell f ->
  length r = length c -> nth_error r k = Some x -> nth_error c k = Some y ->
  nth_error (f r c) k = nth_error (f [x] [y]) 0.
Proof.
  intros Hf Hc Hl Hx Hy. destruct (table_uniform _ _ _ Hf) as [U _].
  rewrite (Hc r c (repeat x (S k)) (repeat y (S k)) k);
    [|exact Hl|rewrite !repeat_length; reflexivity|rewrite Hx, nth_error_repeat' by lia; reflexivity
     |rewrite Hy, nth_error_repeat' by lia; reflexivity].
  rewrite (U _ _ k 0%nat); [|rewrite !repeat_length; reflexivity|rewrite !nth_error_repeat' by lia; reflexivity
     |rewrite !nth_error_repeat' by lia; reflexivity].
  apply Hc; [rewrite !repeat_length; reflexivity|reflexivity|reflexivity|reflexivity].
Qed.
Lemma fac_facl L d R mw j : local_limiters_only pow L C -> (0 <= mw < Z.of_nat nw)%Z ->
  (1 <= j < mx + 2 * ng - 2)%Z -> fac L d R mw j = facl L d R mw j.
Proof.
  intros HL Hmw Hj. destruct L; [|reflexivity]. cbn [Classic1DProofs2.fac facl]. unfold py_fac.
  destruct (any_limiter _ _); [|reflexivity]. destruct (limiter_functions pow (c_mthlim C mw)) as [f|] eqn:Ef; [|reflexivity].
  destruct (qeqb _ 0); [reflexivity|]. apply nth_of_nth_error.
  apply (local_singleton (c_mthlim C mw)); [exact Ef|eapply HL; eauto|rewrite !map_length; reflexivity| |]; apply zrange_nth_error; lia.
Qed.
Lemma facl_same L d d' R R' mw j j' :
  same_waves R R' (j - 1) (j' - 1) -> same_waves R R' j j' -> same_waves R R' (j + 1) (j' + 1) ->
  d j = d' j' -> d (j + 1)%Z = d' (j' + 1)%Z -> facl L d R mw j = facl L d' R' mw j'.
Proof.
  intros A B Cc E1 E2. destruct L; cbn [facl].
  - rewrite (norm2_same C R R' mw j j' B), (ratio_same C R R' mw j j' A B Cc), (local_cfl_same C R R' d d' mw j j' B E1 E2). reflexivity.
  - cbn [Classic1DProofs2.fac]. unfold f_fac. destruct (any_limiter _ _); [|reflexivity]. destruct (Z.eqb _ 0); [reflexivity|].
    unfold f_factor. destruct A as [A1 A2], B as [B1 B2], Cc as [C1 C2]. rewrite B2.
    rewrite (zsum_ext 0 neq (fun m => wave R m mw j * wave R m mw j) (fun m => wave R' m mw j' * wave R' m mw j')) by (intros; rewrite B1 by lia; reflexivity).
    rewrite (zsum_ext 0 neq (fun m => wave R m mw (j - 1)%Z * wave R m mw j) (fun m => wave R' m mw (j' - 1)%Z * wave R' m mw j'))
      by (intros; rewrite A1, B1 by lia; reflexivity).
    rewrite (zsum_ext 0 neq (fun m => wave R m mw j * wave R m mw (j + 1)%Z) (fun m => wave R' m mw j' * wave R' m mw (j' + 1)%Z))
      by (intros; rewrite B1, C1 by lia; reflexivity).
    reflexivity.
Qed.

(** Data equal around two places. *)
Definition same_cell (qbc auxbc qbc' auxbc' : Z -> Z -> Q) (i i' : Z) : Prop :=
  vec neq qbc i = vec neq qbc' i' /\ vec (c_naux C) auxbc i = vec (c_naux C) auxbc' i'.
Lemma same_rp qbc auxbc qbc' auxbc' j j' :
  same_cell qbc auxbc qbc' auxbc' j j' -> same_cell qbc auxbc qbc' auxbc' (j + 1) (j' + 1) ->
  same_waves (rps qbc auxbc) (rps qbc' auxbc') j j' /\
  (forall m, amdq (rps qbc auxbc) m j = amdq (rps qbc' auxbc') m j' /\ apdq (rps qbc auxbc) m j = apdq (rps qbc' auxbc') m j').
Proof.
  intros [A1 A2] [B1 B2].
  assert (E : c_rp C (vec neq qbc (j + 0)) (vec neq qbc (j + 0 + 1)) (vec (c_naux C) auxbc (j + 0)) (vec (c_naux C) auxbc (j + 0 + 1)) =
     c_rp C (vec neq qbc' (j' + 0)) (vec neq qbc' (j' + 0 + 1)) (vec (c_naux C) auxbc' (j' + 0)) (vec (c_naux C) auxbc' (j' + 0 + 1))).
  { rewrite !Z.add_0_r. rewrite A1, A2, B1, B2. reflexivity. }
  split; [split|]; intros; [| |split]; cbn [rps Classic1DProofs2.rps solve_rps wave spd amdq apdq]; rewrite E; reflexivity.
Qed.
Lemma vec_nth n (a : Z -> Z -> Q) m i d : (0 <= m < Z.of_nat n)%Z -> nth (Z.to_nat m) (vec n a i) d = a m i.
Proof.
  intros H. unfold vec. rewrite (nth_indep _ d (a (Z.of_nat 0) i)) by (rewrite map_length, seq_length; lia).
  rewrite (map_nth (fun m => a (Z.of_nat m) i)). rewrite seq_nth by lia. f_equal. lia.
Qed.
Lemma vec_inj n (a b : Z -> Z -> Q) i i' m : vec n a i = vec n b i' -> (0 <= m < Z.of_nat n)%Z -> a m i = b m i'.
Proof. intros E H. rewrite <- (vec_nth n a m i 0 H), <- (vec_nth n b m i' 0 H), E. reflexivity. Qed.
Lemma same_dtdx qbc auxbc qbc' auxbc' i i' : capa_in_aux C -> same_cell qbc auxbc qbc' auxbc' i i' ->
  dtdx_of auxbc i = dtdx_of auxbc' i'.
Proof.
  intros HC [_ A]. unfold Classic1DProofs2.dtdx_of. destruct (c_capa C) as [k|] eqn:E; cbn [option_map py_dtdx]; [|reflexivity].
  rewrite (vec_inj _ _ _ _ _ k A) by (apply HC; exact E). reflexivity.
Qed.

(** Numerical flux with local limiters. *)
Definition numfluxl (flux : list Q -> list Q -> Z -> Q) (L : lang) (qbc auxbc : Z -> Z -> Q) (m e : Z) : Q :=
  flux (vec neq qbc (e - 1)) (vec (c_naux C) auxbc (e - 1)) m + amdq (rps qbc auxbc) m (e - 1)%Z +
  (if second C L then corr nw (pre C L) (facl L (dtdx_of auxbc) (rps qbc auxbc)) (dtdx_of auxbc) (rps qbc auxbc) m e else 0).

Lemma corr_facl L qbc auxbc m e : (2 <= c_ng C)%nat -> local_limiters_only pow L C -> (ng <= e <= ng + mx)%Z ->
  corr nw (pre C L) (fac L (dtdx_of auxbc) (rps qbc auxbc)) (dtdx_of auxbc) (rps qbc auxbc) m e =
  corr nw (pre C L) (facl L (dtdx_of auxbc) (rps qbc auxbc)) (dtdx_of auxbc) (rps qbc auxbc) m e.
Proof. intros Hg HL He. unfold corr. apply zsum_ext. intros mw Hmw. rewrite fac_facl by (auto; lia). reflexivity. Qed.
Lemma numflux_numfluxl flux L qbc auxbc m e : (2 <= c_ng C)%nat -> local_limiters_only pow L C -> (ng <= e <= ng + mx)%Z ->
  numflux flux L qbc auxbc m e = numfluxl flux L qbc auxbc m e.
Proof. intros Hg HL He. unfold Classic1DProofs2.numflux, numfluxl. rewrite corr_facl by assumption. reflexivity. Qed.

Lemma corrl_same L qbc auxbc qbc' auxbc' m e e' : capa_in_aux C -> (0 <= m < Z.of_nat neq)%Z ->
  (forall k, (-2 <= k <= 1)%Z -> same_cell qbc auxbc qbc' auxbc' (e + k) (e' + k)) ->
  corr nw (pre C L) (facl L (dtdx_of auxbc) (rps qbc auxbc)) (dtdx_of auxbc) (rps qbc auxbc) m e =
  corr nw (pre C L) (facl L (dtdx_of auxbc') (rps qbc' auxbc')) (dtdx_of auxbc') (rps qbc' auxbc') m e'.
Proof.
  intros HC Hm HS.
  assert (HS' : forall a b, (a - e = b - e')%Z -> (-2 <= a - e <= 1)%Z -> same_cell qbc auxbc qbc' auxbc' a b).
  { intros a b E1 E2. replace a with (e + (a - e))%Z by lia. replace b with (e' + (a - e))%Z by lia. apply HS. lia. }
  assert (W : forall a b, (a - e = b - e')%Z -> (-2 <= a - e <= 0)%Z -> same_waves (rps qbc auxbc) (rps qbc' auxbc') a b).
  { intros a b E1 E2. apply same_rp; apply HS'; lia. }
  assert (D : forall a b, (a - e = b - e')%Z -> (-2 <= a - e <= 1)%Z -> dtdx_of auxbc a = dtdx_of auxbc' b).
  { intros a b E1 E2. eapply same_dtdx; [exact HC|]. apply HS'; assumption. }
  apply corr_same; try assumption.
  - apply W; lia.
  - intros mw. apply facl_same; first [apply W; lia|apply D; lia].
  - apply D; lia.
  - apply D; lia.
Qed.
Lemma numfluxl_same flux L qbc auxbc qbc' auxbc' m e e' : capa_in_aux C -> (0 <= m < Z.of_nat neq)%Z ->
  (forall k, (-2 <= k <= 1)%Z -> same_cell qbc auxbc qbc' auxbc' (e + k) (e' + k)) ->
  numfluxl flux L qbc auxbc m e = numfluxl flux L qbc' auxbc' m e'.
Proof.
  intros HC Hm HS. unfold numfluxl. rewrite (corrl_same L qbc auxbc qbc' auxbc' m e e' HC Hm HS).
  assert (A := HS (-1)%Z ltac:(lia)). assert (B := HS 0%Z ltac:(lia)).
  replace (e + -1)%Z with (e - 1)%Z in A by lia. replace (e' + -1)%Z with (e' - 1)%Z in A by lia. rewrite !Z.add_0_r in B.
  destruct (same_rp qbc auxbc qbc' auxbc' (e - 1)%Z (e' - 1)%Z A) as [_ E].
  { replace (e - 1 + 1)%Z with e by lia. replace (e' - 1 + 1)%Z with e' by lia. exact B. }
  destruct (E m) as [-> _]. destruct A as [-> ->]. reflexivity.
Qed.

(** Arrays with given contents in cells 0 .. 3. *)
Definition of_cells (l : list (list Q)) : Z -> Z -> Q := fun m i => nth (Z.to_nat m) (nth (Z.to_nat i) l []) 0.
Lemma of_cells_around n a e k : (-2 <= k <= 1)%Z -> vec n a (e + k) = vec n (of_cells (around n a e)) (2 + k).
Proof.
  intros Hk. apply vec_ext. intros m Hm. unfold of_cells, around.
  assert (K : nth (Z.to_nat (2 + k)) (map (vec n a) [(e - 2)%Z; (e - 1)%Z; e; (e + 1)%Z]) [] = vec n a (e + k)).
  { assert (k = -2 \/ k = -1 \/ k = 0 \/ k = 1)%Z as [-> | [-> | [-> | ->]]] by lia;
      [change (Z.to_nat (2 + -2)) with 0%nat|change (Z.to_nat (2 + -1)) with 1%nat|change (Z.to_nat (2 + 0)) with 2%nat|change (Z.to_nat (2 + 1)) with 3%nat];
      cbn [map nth]; f_equal; lia. }
  rewrite K, vec_nth by exact Hm. reflexivity.
Qed.
Definition flux4 (flux : list Q -> list Q -> Z -> Q) (L : lang) (us as_ : list (list Q)) (m : Z) : Q :=
  numfluxl flux L (of_cells us) (of_cells as_) m 2.
Lemma numflux_flux4 flux L qbc auxbc m e : (2 <= c_ng C)%nat -> local_limiters_only pow L C -> capa_in_aux C ->
  (0 <= m < Z.of_nat neq)%Z -> (ng <= e <= ng + mx)%Z ->
  numflux flux L qbc auxbc m e = flux4 flux L (around neq qbc e) (around (c_naux C) auxbc e) m.
Proof.
  intros Hg HL HC Hm He. rewrite numflux_numfluxl by assumption. apply numfluxl_same; try assumption.
  intros k Hk. split; apply of_cells_around; exact Hk.
Qed.
Lemma flux4_consistent flux L u a m : at_rest neq nw (c_rp C) u -> length u = neq -> length a = c_naux C -> (0 <= m < Z.of_nat neq)%Z ->
  flux4 flux L [u; u; u; u] [a; a; a; a] m == flux u a m.
Proof.
  intros HR Hu Ha Hm.
  assert (V : forall (n : nat) (v : list Q) i, length v = n -> (0 <= i <= 3)%Z -> vec n (of_cells [v; v; v; v]) i = v).
  { intros n v i Hl Hi. subst n. apply (nth_ext _ _ 0 0).
    - unfold vec. rewrite map_length, seq_length. reflexivity.
    - intros k Hk. unfold vec in Hk. rewrite map_length, seq_length in Hk.
      pose proof (vec_nth (length v) (of_cells [v; v; v; v]) (Z.of_nat k) i 0 ltac:(lia)) as E.
      rewrite Nat2Z.id in E. rewrite E. unfold of_cells. rewrite Nat2Z.id.
      assert (i = 0 \/ i = 1 \/ i = 2 \/ i = 3)%Z as [-> | [-> | [-> | ->]]] by lia; reflexivity. }
  unfold flux4, numfluxl. change (2 - 1)%Z with 1%Z. rewrite (V _ u 1%Z Hu), (V _ a 1%Z Ha) by lia.
  cbn [Classic1DProofs2.rps solve_rps amdq]. change (1 + 0)%Z with 1%Z. change (1 + 1)%Z with 2%Z.
  rewrite (V _ u 1%Z Hu), (V _ u 2%Z Hu), (V _ a 1%Z Ha), (V _ a 2%Z Ha) by lia.
  destruct (HR a a m Hm) as (E1 & _ & E2). rewrite E1. destruct (second C L); [|ring].
  unfold corr. rewrite zsum_zero; [ring|]. intros mw Hmw. cbn [Classic1DProofs2.rps solve_rps wave spd]. change (2 - 1 + 0)%Z with 1%Z. change (1 + 1)%Z with 2%Z.
  rewrite (V _ u 1%Z Hu), (V _ u 2%Z Hu), (V _ a 1%Z Ha), (V _ a 2%Z Ha) by lia. rewrite E2 by lia. ring.
Qed.

(** ** Constants *)
Lemma constant_kernel L qbc auxbc q' cfl u :
  (2 <= c_ng C)%nat -> length u = neq -> at_rest neq nw (c_rp C) u ->
  kernel pow undef L C qbc auxbc = Some (q', cfl) ->
  (forall i, (ng - 2 <= i < ng + mx + 2)%Z -> vec neq qbc i = u) ->
  forall m i, (0 <= m < Z.of_nat neq)%Z -> (ng <= i < ng + mx)%Z -> q' m i == qbc m i.
Proof.
  intros Hg Hu HR HK HV m i Hm Hi. rewrite (kernel_form pow undef C L qbc auxbc q' cfl Hg HK m i Hi).
  assert (Z0 : forall j, (ng - 1 <= j < ng + mx)%Z ->
     amdq (rps qbc auxbc) m j == 0 /\ apdq (rps qbc auxbc) m j == 0 /\
     forall mw, (0 <= mw < Z.of_nat nw)%Z -> wave (rps qbc auxbc) m mw j == 0).
  { intros j Hj. cbn [Classic1DProofs2.rps solve_rps amdq apdq wave]. rewrite (HV (j + 0)%Z), (HV (j + 0 + 1)%Z) by lia.
    destruct (HR (vec (c_naux C) auxbc (j + 0)) (vec (c_naux C) auxbc (j + 0 + 1)) m Hm) as (A & B & D). auto. }
  assert (C0 : forall e, (ng <= e <= ng + mx)%Z -> forall p f d, corr nw p f d (rps qbc auxbc) m e == 0).
  { intros e He p f d. unfold corr. apply zsum_zero. intros mw Hmw. destruct (Z0 (e - 1)%Z ltac:(lia)) as (_ & _ & W).
    rewrite W by lia. ring. }
  unfold update. destruct (Z0 (i - 1)%Z ltac:(lia)) as (_ & E1 & _). destruct (Z0 i ltac:(lia)) as (E2 & _ & _).
  rewrite E1, E2. destruct (second C L); [rewrite !C0 by lia|]; ring.
Qed.

(** ** Stencil *)
Lemma stencil L qbc auxbc qbc2 auxbc2 q' cfl q2' cfl2 m i :
  (2 <= c_ng C)%nat -> local_limiters_only pow L C -> capa_in_aux C ->
  kernel pow undef L C qbc auxbc = Some (q', cfl) -> kernel pow undef L C qbc2 auxbc2 = Some (q2', cfl2) ->
  (0 <= m < Z.of_nat neq)%Z -> (ng <= i < ng + mx)%Z ->
  (forall k, (i - 2 <= k <= i + 2)%Z -> same_cell qbc auxbc qbc2 auxbc2 k k) ->
  q' m i == q2' m i.
Proof.
  intros Hg HL HC HK HK2 Hm Hi HS.
  rewrite (kernel_form pow undef C L _ _ _ _ Hg HK m i Hi), (kernel_form pow undef C L _ _ _ _ Hg HK2 m i Hi).
  unfold update. rewrite !corr_facl by (auto; lia).
  rewrite (corrl_same L qbc auxbc qbc2 auxbc2 m i i HC Hm) by (intros; apply HS; lia).
  rewrite (corrl_same L qbc auxbc qbc2 auxbc2 m (i + 1) (i + 1) HC Hm) by (intros; apply HS; lia).
  rewrite (same_dtdx qbc auxbc qbc2 auxbc2 i i HC) by (apply HS; lia).
  destruct (same_rp qbc auxbc qbc2 auxbc2 i i) as [_ E]; [apply HS; lia|apply HS; lia|].
  destruct (same_rp qbc auxbc qbc2 auxbc2 (i - 1)%Z (i - 1)%Z) as [_ E']; [apply HS; lia|apply HS; lia|].
  destruct (E m) as [-> _]. destruct (E' m) as [_ ->].
  destruct (HS i ltac:(lia)) as [E3 _]. rewrite (vec_inj _ _ _ _ _ m E3 Hm). reflexivity.
Qed.

(** Whatever the limiter, nothing outside the ghosted array matters. *)
Lemma inside_array L qbc auxbc qbc2 auxbc2 q' cfl q2' cfl2 m i :
  (2 <= c_ng C)%nat -> capa_in_aux C ->
  kernel pow undef L C qbc auxbc = Some (q', cfl) -> kernel pow undef L C qbc2 auxbc2 = Some (q2', cfl2) ->
  (0 <= m < Z.of_nat neq)%Z -> (ng <= i < ng + mx)%Z ->
  (forall k, (0 <= k < mx + 2 * ng)%Z -> same_cell qbc auxbc qbc2 auxbc2 k k) ->
  q' m i == q2' m i.
Proof.
  intros Hg HC HK HK2 Hm Hi HS.
  rewrite (kernel_form pow undef C L _ _ _ _ Hg HK m i Hi), (kernel_form pow undef C L _ _ _ _ Hg HK2 m i Hi).
  assert (W : forall j, (0 <= j < mx + 2 * ng - 1)%Z -> same_waves (rps qbc auxbc) (rps qbc2 auxbc2) j j).
  { intros j Hj. apply same_rp; apply HS; lia. }
  assert (D : forall j, (0 <= j < mx + 2 * ng)%Z -> dtdx_of auxbc j = dtdx_of auxbc2 j).
  { intros j Hj. eapply same_dtdx; [exact HC|]. apply HS; exact Hj. }
  assert (F : forall mw j, (1 <= j < mx + 2 * ng - 2)%Z ->
     fac L (dtdx_of auxbc) (rps qbc auxbc) mw j = fac L (dtdx_of auxbc2) (rps qbc2 auxbc2) mw j).
  { intros mw j Hj. destruct L.
    - cbn [Classic1DProofs2.fac]. unfold py_fac. destruct (any_limiter _ _); [|reflexivity].
      destruct (limiter_functions _ _) as [f|]; [|reflexivity].
      rewrite (norm2_same C (rps qbc auxbc) (rps qbc2 auxbc2) mw j j) by (apply W; lia).
      assert (E1 : map (ratio neq (wave (rps qbc auxbc)) (spd (rps qbc auxbc)) mw) (zrange 1 (Z.to_nat (mx + 2 * ng - 3))) =
                   map (ratio neq (wave (rps qbc2 auxbc2)) (spd (rps qbc2 auxbc2)) mw) (zrange 1 (Z.to_nat (mx + 2 * ng - 3)))).
      { apply map_ext_in. intros a Ha. apply zrange_in in Ha. apply ratio_same; apply W; lia. }
      assert (E2 : map (local_cfl (spd (rps qbc auxbc)) (dtdx_of auxbc) mw) (zrange 1 (Z.to_nat (mx + 2 * ng - 3))) =
                   map (local_cfl (spd (rps qbc2 auxbc2)) (dtdx_of auxbc2) mw) (zrange 1 (Z.to_nat (mx + 2 * ng - 3)))).
      { apply map_ext_in. intros a Ha. apply zrange_in in Ha. apply (local_cfl_same C); [apply W; lia|apply D; lia|apply D; lia]. }
      rewrite E1, E2. reflexivity.
    - apply (facl_same Fortran (dtdx_of auxbc) (dtdx_of auxbc2)); first [apply W; lia|apply D; lia]. }
  assert (K : forall e, (ng <= e <= ng + mx)%Z ->
     corr nw (pre C L) (fac L (dtdx_of auxbc) (rps qbc auxbc)) (dtdx_of auxbc) (rps qbc auxbc) m e =
     corr nw (pre C L) (fac L (dtdx_of auxbc2) (rps qbc2 auxbc2)) (dtdx_of auxbc2) (rps qbc2 auxbc2) m e).
  { intros e He. apply corr_same; try assumption; [apply W; lia|intros; apply F; lia|apply D; lia|apply D; lia]. }
  unfold update. rewrite !K by lia. rewrite (D i) by lia.
  destruct (same_rp qbc auxbc qbc2 auxbc2 i i) as [_ E]; [apply HS; lia|apply HS; lia|].
  destruct (same_rp qbc auxbc qbc2 auxbc2 (i - 1)%Z (i - 1)%Z) as [_ E']; [apply HS; lia|apply HS; lia|].
  destruct (E m) as [-> _]. destruct (E' m) as [_ ->].
  destruct (HS i ltac:(lia)) as [E3 _]. rewrite (vec_inj _ _ _ _ _ m E3 Hm). reflexivity.
Qed.

(** ** The two kernels *)
Lemma Qmult_comm_eq (a b : Q) : Qmult a b = Qmult b a.
Proof. destruct a, b. unfold Qmult. simpl. rewrite Z.mul_comm, Pos.mul_comm. reflexivity. Qed.

Definition common_limiter (n : Z) : Prop := In n [0; 1; 3; 4; 5]%Z.
Lemma fac_agree d R mw j : (1 <= j < mx + 2 * ng - 2)%Z -> common_limiter (c_mthlim C mw) ->
  fac Python d R mw j = fac Fortran d R mw j.
Proof.
  intros Hj HL. cbn [Classic1DProofs2.fac]. unfold py_fac, f_fac. destruct (any_limiter _ _); [|reflexivity].
  unfold f_factor, f_phi.
  assert (E0 : zsum 0 neq (fun m => wave R m mw j * wave R m mw j) = norm2 neq (wave R) mw j) by reflexivity.
  rewrite E0.
  assert (E1 : (if qltb 0 (spd R mw j) then zsum 0 neq (fun m => wave R m mw (j - 1)%Z * wave R m mw j)
                else zsum 0 neq (fun m => wave R m mw j * wave R m mw (j + 1)%Z)) =
               (if qltb 0 (spd R mw j) then dotls neq (wave R) mw (j - 1)%Z else dotls neq (wave R) mw j)).
  { destruct (qltb _ _); unfold dotls; apply zsum_ext; intros; rewrite Qmult_comm_eq; [|reflexivity].
    replace (j - 1 + 1)%Z with j by lia. reflexivity. }
  rewrite E1.
  assert (N : forall g (lim : Z), 
     (let js := zrange 1 (Z.to_nat (mx + 2 * ng - 3)) in
      nth (Z.to_nat (j - 1)) (map2 g (map (ratio neq (wave R) (spd R) mw) js) (map (local_cfl (spd R) d mw) js)) 0) =
     g (ratio neq (wave R) (spd R) mw j) (local_cfl (spd R) d mw j)).
  { intros g lim. cbv zeta. rewrite <- nth_default_eq. unfold nth_default. rewrite nth_error_map2.
    rewrite !zrange_nth_error by lia. reflexivity. }
  destruct HL as [E|[E|[E|[E|[E|[]]]]]]; rewrite <- E; cbn [Z.eqb limiter_functions philim Pos.eqb]; [reflexivity|..];
  destruct (qeqb (norm2 neq (wave R) mw j) 0) eqn:En; try reflexivity; rewrite N by exact 0%Z; unfold ratio; rewrite En; reflexivity.
Qed.

Lemma pre_agree s : (c_fwave C = true -> ~ s == 0) -> pre C Python s = pre C Fortran s.
Proof.
  cbn [pre]. unfold py_pre, f_pre, npsign, dsign1. destruct (c_fwave C); [|reflexivity]. intros H. specialize (H eq_refl).
  destruct (qltb s 0) eqn:E1; [reflexivity|]. destruct (qltb 0 s) eqn:E2; [reflexivity|].
  qprop. exfalso. apply H. lra.
Qed.

Lemma kernels_agree qbc auxbc qp cp qf cf :
  (2 <= c_ng C)%nat -> c_order C = 1%Z \/ c_order C = 2%Z ->
  (forall mw, (0 <= mw < Z.of_nat nw)%Z -> common_limiter (c_mthlim C mw)) ->
  (c_fwave C = true -> forall mw j, (0 <= mw < Z.of_nat nw)%Z -> (ng - 1 <= j < ng + mx)%Z -> ~ spd (rps qbc auxbc) mw j == 0) ->
  kernel pow undef Python C qbc auxbc = Some (qp, cp) -> kernel pow undef Fortran C qbc auxbc = Some (qf, cf) ->
  forall m i, (ng <= i < ng + mx)%Z -> qp m i == qf m i.
Proof.
  intros Hg HO HL HS HP HF m i Hi.
  rewrite (kernel_form pow undef C _ _ _ _ _ Hg HP m i Hi), (kernel_form pow undef C _ _ _ _ _ Hg HF m i Hi).
  assert (K : forall e, (ng <= e <= ng + mx)%Z ->
     corr nw (pre C Python) (fac Python (dtdx_of auxbc) (rps qbc auxbc)) (dtdx_of auxbc) (rps qbc auxbc) m e =
     corr nw (pre C Fortran) (fac Fortran (dtdx_of auxbc) (rps qbc auxbc)) (dtdx_of auxbc) (rps qbc auxbc) m e).
  { intros e He. unfold corr. apply zsum_ext. intros mw Hmw. rewrite fac_agree by (try apply HL; lia).
    rewrite pre_agree; [reflexivity|]. intros Hw. apply HS; [exact Hw|lia|lia]. }
  unfold update. rewrite !K by lia. cbn [second]. destruct HO as [-> | ->]; reflexivity.
Qed.
End S.
