(** Equilibria: proofs. *)
From Verif Require Import Base BCModel BCSpec BCProofs LimiterModel Classic1DModel Classic1DSpec Classic1DProofs Classic1DProofs2 Classic1DProofs3 Classic1DProps
  TimeModel RunModel SimSpec SymSpec SymProps CapaSpec CapaProofs EquilSpec.

Section Equil.
Variables (pow : Q -> Q -> Q) (undef : Q -> Q -> Z -> Q) (L : lang) (C : settings).
Hypothesis Hng : (2 <= c_ng C)%nat.
Hypothesis HF : fit_dim (c_ng C) (Nat.ltb 0 (c_naux C)) (Z.of_nat (c_neq C)) (c_bc C).
Notation ng := (Z.of_nat (c_ng C)).
Notation mx := (ncells (c_bc C)).
Notation neq := (c_neq C).

Lemma vec_at q qbc i : (forall m i, (- ng <= i < mx + ng)%Z -> qbc m (i + ng)%Z = q_ghost_value Q Qopp [c_bc C] q m [i]) ->
  (- ng <= i < mx + ng)%Z -> vec neq qbc (i + ng)%Z = q_at C q i.
Proof. intros H Hi. unfold vec, q_at. apply map_ext. intro m. apply H. exact Hi. Qed.
Lemma vec_aux_at aux auxbc i :
  (Nat.ltb 0 (c_naux C) = true -> forall m i, (- ng <= i < mx + ng)%Z -> auxbc m (i + ng)%Z = aux_ghost_value Q [c_bc C] aux m [i]) ->
  (- ng <= i < mx + ng)%Z -> vec (c_naux C) auxbc (i + ng)%Z = aux_at C aux i.
Proof.
  intros H Hi. destruct (c_naux C) as [|n] eqn:E; [unfold aux_at; rewrite E; reflexivity|]. unfold vec, aux_at. rewrite E. apply map_ext. intro m. apply H; [reflexivity|exact Hi].
Qed.
Lemma balanced_kernel qbc auxbc q' cfl :
  kernel pow undef L C qbc auxbc = Some (q', cfl) ->
  (forall j, (ng - 1 <= j < ng + mx)%Z -> balanced neq (c_nw C) (c_rp C (vec neq qbc j) (vec neq qbc (j + 1)) (vec (c_naux C) auxbc j) (vec (c_naux C) auxbc (j + 1)))) ->
  forall m i, (0 <= m < Z.of_nat neq)%Z -> (ng <= i < ng + mx)%Z -> q' m i == qbc m i.
Proof.
  intros HK HB m i Hm Hi. rewrite (kernel_form pow undef C L qbc auxbc q' cfl Hng HK m i Hi).
  assert (Z0 : forall j, (ng - 1 <= j < ng + mx)%Z ->
     amdq (rps C qbc auxbc) m j == 0 /\ apdq (rps C qbc auxbc) m j == 0 /\
     forall mw, (0 <= mw < Z.of_nat (c_nw C))%Z -> wave (rps C qbc auxbc) m mw j == 0).
  { intros j Hj. cbn [rps solve_rps amdq apdq wave]. rewrite Z.add_0_r. exact (HB j Hj m Hm). }
  assert (C0 : forall e, (ng <= e <= ng + mx)%Z -> forall p f d, corr (c_nw C) p f d (rps C qbc auxbc) m e == 0).
  { intros e He p f d. unfold corr. apply zsum_zero. intros mw Hmw. destruct (Z0 (e - 1)%Z ltac:(lia)) as (_ & _ & W).
    rewrite W by lia. ring. }
  unfold update. destruct (Z0 (i - 1)%Z ltac:(lia)) as (_ & E1 & _). destruct (Z0 i ltac:(lia)) as (E2 & _ & _).
  rewrite E1, E2. destruct (second C L); [rewrite !C0 by lia|]; ring.
Qed.
Lemma mx_pos : (1 <= mx)%Z.
Proof. destruct HF as (_ & _ & _ & _ & _ & (_ & _ & W) & _). exact W. Qed.
Lemma equil_step q aux qbc0 auxbc0 : capa_in_aux C -> equilibrium C q aux ->
  match step_hyperbolic pow undef L C q aux qbc0 auxbc0 with
  | Stepped q' _ => forall m i, (0 <= m < Z.of_nat neq)%Z -> (0 <= i < mx)%Z -> q' m i == q m [i]
  | Stopped => L = Fortran /\ exists i, (0 <= i < cells C)%Z /\ capacity C (flat aux) i <= 0
  | BCError _ => False
  end.
Proof.
  intros CAP EQ. destruct (step_ok pow undef C L q aux qbc0 auxbc0 ltac:(lia) HF) as (qbc & auxbc & Hq & Ha & ->).
  destruct (kernel pow undef L C qbc auxbc) as [[q' cfl]|] eqn:EK.
  - intros m i Hm Hi. rewrite (balanced_kernel qbc auxbc q' cfl EK); [| |exact Hm|lia].
    + rewrite Hq by lia. unfold q_ghost_value. cbn [combine map rev app fold_right fst snd]. unfold behind_wall, source_cell.
      replace (Z.ltb i 0) with false by lia. replace (Z.leb mx i) with false by lia. destruct (q_lo (c_bc C)), (q_hi (c_bc C)); rewrite ?andb_false_r; reflexivity.
    + intros j Hj. specialize (EQ (j - ng)%Z). rewrite <- !(vec_at q qbc _ Hq), <- !(vec_aux_at aux auxbc _ Ha) in EQ by lia.
      replace (j - ng + 1 + ng)%Z with (j + 1)%Z in EQ by lia. replace (j - ng + ng)%Z with j in EQ by lia. apply EQ. unfold cells. lia.
  - destruct (kernel_stopped pow undef C L qbc auxbc EK) as (HL & k & i & Ek & Hi & Hc). split; [exact HL|].
    assert (E : Nat.ltb 0 (c_naux C) = true) by (specialize (CAP k Ek); apply Nat.ltb_lt; lia).
    exists (source_cell (a_lo (c_bc C)) (a_hi (c_bc C)) mx (i - ng)). split.
    + destruct HF as (_ & _ & _ & _ & _ & _ & Wa). destruct (Wa E) as (S1 & S2 & W). apply (source_in C Hng); try assumption. lia.
    + unfold capacity, flat. rewrite Ek. pose proof (Ha E k (i - ng)%Z ltac:(lia)) as K. replace (i - ng + ng)%Z with i in K by lia.
      rewrite K in Hc. exact Hc.
Qed.

(** Equilibria are a property of the values *)
Hypothesis HR : regular C.
Lemma q_image q0 q i : agree C neq q0 q -> (- ng <= i < mx + ng)%Z -> image neq (fun _ => 1) (q_at C q0 i) (q_at C q i).
Proof.
  intros A Hi. unfold q_at. split; [rewrite map_length, seq_length; reflexivity|]. split; [rewrite map_length, seq_length; reflexivity|].
  intros m Hm. rewrite !(nth_indep _ 0 ((fun m => q_ghost_value Q Qopp [c_bc C] q (Z.of_nat m) [i]) 0%nat)) by (rewrite map_length, seq_length; lia).
  rewrite (map_nth (fun m => q_ghost_value Q Qopp [c_bc C] q (Z.of_nat m) [i])).
  rewrite (nth_indep _ _ ((fun m => q_ghost_value Q Qopp [c_bc C] q0 (Z.of_nat m) [i]) 0%nat)) by (rewrite map_length, seq_length; lia).
  rewrite (map_nth (fun m => q_ghost_value Q Qopp [c_bc C] q0 (Z.of_nat m) [i])). rewrite seq_nth by lia.
  replace (Z.of_nat (0 + Z.to_nat m)) with m by lia.
  assert (K : q m [source_cell (q_lo (c_bc C)) (q_hi (c_bc C)) mx i] == q0 m [source_cell (q_lo (c_bc C)) (q_hi (c_bc C)) mx i]).
  { apply A; [exact Hm|]. destruct HF as (_ & _ & _ & S1 & S2 & W & _). apply (source_in C Hng); assumption. }
  unfold q_ghost_value. cbn [combine map rev app fold_right fst snd]. destruct (_ && _)%bool; rewrite K; ring.
Qed.
Lemma aux_image a0 a i : agree C (c_naux C) a0 a -> (- ng <= i < mx + ng)%Z -> image (c_naux C) (fun _ => 1) (aux_at C a0 i) (aux_at C a i).
Proof.
  intros A Hi. unfold aux_at. split; [rewrite map_length, seq_length; reflexivity|]. split; [rewrite map_length, seq_length; reflexivity|].
  intros m Hm. rewrite !(nth_indep _ 0 ((fun m => aux_ghost_value Q [c_bc C] a (Z.of_nat m) [i]) 0%nat)) by (rewrite map_length, seq_length; lia).
  rewrite (map_nth (fun m => aux_ghost_value Q [c_bc C] a (Z.of_nat m) [i])).
  rewrite (nth_indep _ _ ((fun m => aux_ghost_value Q [c_bc C] a0 (Z.of_nat m) [i]) 0%nat)) by (rewrite map_length, seq_length; lia).
  rewrite (map_nth (fun m => aux_ghost_value Q [c_bc C] a0 (Z.of_nat m) [i])). rewrite seq_nth by lia.
  replace (Z.of_nat (0 + Z.to_nat m)) with m by lia.
  unfold aux_ghost_value. cbn [combine map fst snd]. rewrite (A m (source_cell (a_lo (c_bc C)) (a_hi (c_bc C)) mx i)); [ring|exact Hm|].
  assert (E : Nat.ltb 0 (c_naux C) = true) by (apply Nat.ltb_lt; lia).
  destruct HF as (_ & _ & _ & _ & _ & _ & Wa). destruct (Wa E) as (S1 & S2 & W). apply (source_in C Hng); assumption.
Qed.
Lemma equil_agree q0 a0 q a : unchanged C q0 a0 q a -> equilibrium C q0 a0 -> equilibrium C q a.
Proof.
  intros (A & B) EQ i Hi m Hm. unfold cells in Hi. specialize (EQ i ltac:(unfold cells; lia) m Hm). destruct EQ as (E1 & E2 & E3).
  assert (R1 : (- ng <= i < mx + ng)%Z) by lia. assert (R2 : (- ng <= i + 1 < mx + ng)%Z) by lia.
  pose proof (HR _ _ _ _ _ _ _ _ (q_image q0 q i A R1) (q_image q0 q (i + 1)%Z A R2) (aux_image a0 a i B R1) (aux_image a0 a (i + 1)%Z B R2)) as S.
  cbn [moved g_mirror] in S. destruct S as (_ & S2). cbn [moved g_mirror g_speed g_q] in S2. destruct (S2 m Hm) as (T1 & T2 & T3).
  split; [rewrite T1, E1; ring|]. split; [rewrite T2, E2; ring|]. intros p Hp. rewrite T3, E3 by exact Hp. destruct (c_fwave C); ring.
Qed.
End Equil.
