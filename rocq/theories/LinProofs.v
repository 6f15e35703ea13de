(** Proofs about superposition: one step of the 1D classic solver. *)
From Verif Require Import Base TimeModel BCModel BCSpec LimiterModel Classic1DModel Classic1DSpec Classic1DProofs Classic1DProofs2 Classic1DProofs3
  Classic1DProofs5 RunModel SymSpec SymProofs SymProofs2 SymProofs3 LinSpec.

Lemma npsign_m x y : x == y -> npsign x = npsign y.
Proof. intro H. unfold npsign. rewrite (qltb_m x y 0 0 H ltac:(reflexivity)), (qltb_m 0 0 x y ltac:(reflexivity) H). reflexivity. Qed.
Lemma dsign_m x y : x == y -> dsign1 x = dsign1 y.
Proof. intro H. unfold dsign1. rewrite (qltb_m x y 0 0 H ltac:(reflexivity)). reflexivity. Qed.
Lemma pre_m C L x y : x == y -> pre C L x == pre C L y.
Proof.
  intro H. destruct L; cbn [pre]; unfold py_pre, f_pre; destruct (c_fwave C); [rewrite (npsign_m _ _ H)|rewrite H|rewrite (dsign_m _ _ H)|rewrite H]; reflexivity.
Qed.
Lemma nolimit n f : (forall p, (0 <= p < Z.of_nat n)%Z -> f p = 0%Z) -> any_limiter n f = false.
Proof.
  intro H. unfold any_limiter. destruct (existsb _ _) eqn:E; [|reflexivity]. apply existsb_exists in E as (k & Hk & E).
  apply in_seq in Hk. rewrite H in E by lia. discriminate.
Qed.
Lemma fac_one pow undef C L d R p j : (forall p, (0 <= p < Z.of_nat (c_nw C))%Z -> c_mthlim C p = 0%Z) -> fac pow undef C L d R p j = 1.
Proof. intro H. destruct L; cbn [fac]; unfold py_fac, f_fac; rewrite (nolimit _ _ H); reflexivity. Qed.
Lemma zsum_lin lo n a b (f g : Z -> Q) : zsum lo n (fun k => a * f k + b * g k) == a * zsum lo n f + b * zsum lo n g.
Proof. induction n; cbn [zsum]; [ring|]. rewrite IHn. ring. Qed.
Lemma same_vec n (x y : Z -> Z -> Q) i : (forall m, (0 <= m < Z.of_nat n)%Z -> x m i == y m i) -> same_values n (vec n x i) (vec n y i).
Proof.
  intro H. split; [apply vec_length|]. split; [apply vec_length|]. intros m Hm.
  rewrite (vec_nth n x m i 0 Hm), (vec_nth n y m i 0 Hm). apply H. exact Hm.
Qed.
Lemma sum_vec n a b (x y z : Z -> Z -> Q) i : (forall m, (0 <= m < Z.of_nat n)%Z -> z m i == a * x m i + b * y m i) ->
  combined n a b (vec n x i) (vec n y i) (vec n z i).
Proof.
  intro H. split; [apply vec_length|]. split; [apply vec_length|]. split; [apply vec_length|]. intros m Hm.
  rewrite (vec_nth n x m i 0 Hm), (vec_nth n y m i 0 Hm), (vec_nth n z m i 0 Hm). apply H. exact Hm.
Qed.

Section Kernel.
Variables (pow : Q -> Q -> Q) (undef : Q -> Q -> Z -> Q) (L : lang) (C : settings) (a b d1 d2 d3 : Q).
Hypothesis Hd1 : d1 == d3.
Hypothesis Hd2 : d2 == d3.
Hypothesis HR : linear_solver (c_neq C) (c_nw C) (c_naux C) (c_rp C).
Hypothesis HU : unlimited C.
Hypothesis Hcapa : capa_in_aux C.
Hypothesis Hng : (2 <= c_ng C)%nat.
Notation neq := (c_neq C).
Notation nw := (c_nw C).
Notation naux := (c_naux C).
Notation ng := (Z.of_nat (c_ng C)).
Notation mx := (ncells (c_bc C)).
Variables q1 x1 q2 x2 q3 x3 : Z -> Z -> Q.
Notation R1 := (rps C q1 x1).
Notation R2 := (rps C q2 x2).
Notation R3 := (rps C q3 x3).
Notation e1 := (dtdx_of (with_dt C d1) x1).
Notation e2 := (dtdx_of (with_dt C d2) x2).
Notation e3 := (dtdx_of (with_dt C d3) x3).

Definition cell_sum (i : Z) : Prop :=
  (forall m, (0 <= m < Z.of_nat neq)%Z -> q3 m i == a * q1 m i + b * q2 m i) /\
  (forall m, (0 <= m < Z.of_nat naux)%Z -> x1 m i == x3 m i /\ x2 m i == x3 m i).

Lemma dtdx_sum i : cell_sum i -> e1 i == e3 i /\ e2 i == e3 i.
Proof.
  intros [_ H]. unfold dtdx_of. cbn [with_dt c_capa c_dt c_dx]. destruct (c_capa C) as [k|] eqn:E; cbn [option_map py_dtdx].
  - destruct (H k (Hcapa k E)) as [A B]. rewrite A, B, Hd1, Hd2. split; reflexivity.
  - rewrite Hd1, Hd2. split; reflexivity.
Qed.
Lemma iface_sum j : cell_sum j -> cell_sum (j + 1) ->
  (forall p, (0 <= p < Z.of_nat nw)%Z -> spd R1 p j == spd R3 p j /\ spd R2 p j == spd R3 p j) /\
  forall m, (0 <= m < Z.of_nat neq)%Z ->
    amdq R3 m j == a * amdq R1 m j + b * amdq R2 m j /\ apdq R3 m j == a * apdq R1 m j + b * apdq R2 m j /\
    forall p, (0 <= p < Z.of_nat nw)%Z -> wave R3 m p j == a * wave R1 m p j + b * wave R2 m p j.
Proof.
  intros [A1 A2] [B1 B2]. cbn [rps solve_rps spd amdq apdq wave].
  rewrite !Z.add_0_r.
  exact (HR a b _ _ _ _ _ _ _ _ _ _ _ _ (sum_vec neq a b q1 q2 q3 j A1) (sum_vec neq a b q1 q2 q3 (j + 1) B1)
    (same_vec naux x1 x3 j (fun m Hm => proj1 (A2 m Hm))) (same_vec naux x1 x3 (j + 1) (fun m Hm => proj1 (B2 m Hm)))
    (same_vec naux x2 x3 j (fun m Hm => proj2 (A2 m Hm))) (same_vec naux x2 x3 (j + 1) (fun m Hm => proj2 (B2 m Hm)))).
Qed.
Lemma corr_sum m e : (0 <= m < Z.of_nat neq)%Z -> cell_sum (e - 1) -> cell_sum e ->
  corr nw (pre C L) (fun _ _ => 1) e3 R3 m e == a * corr nw (pre C L) (fun _ _ => 1) e1 R1 m e + b * corr nw (pre C L) (fun _ _ => 1) e2 R2 m e.
Proof.
  intros Hm HA HB. unfold corr. rewrite <- zsum_lin. apply zsum_eq. intros p Hp.
  destruct (dtdx_sum _ HA) as [D1 D2]. destruct (dtdx_sum _ HB) as [D3 D4].
  destruct (iface_sum (e - 1) HA ltac:(replace (e - 1 + 1)%Z with e by lia; exact HB)) as [S W].
  destruct (S p ltac:(lia)) as [S1 S2]. destruct (W m Hm) as (_ & _ & W'). rewrite (W' p) by lia.
  rewrite D1, D2, D3, D4, (pre_m C L _ _ S1), (pre_m C L _ _ S2), S1, S2. ring.
Qed.
Lemma cell_step k1 k2 k3 c1 c2 c3 m i :
  kernel pow undef L (with_dt C d1) q1 x1 = Some (k1, c1) -> kernel pow undef L (with_dt C d2) q2 x2 = Some (k2, c2) ->
  kernel pow undef L (with_dt C d3) q3 x3 = Some (k3, c3) ->
  (0 <= m < Z.of_nat neq)%Z -> (ng <= i < ng + mx)%Z -> (forall k, (-2 <= k <= 2)%Z -> cell_sum (i + k)) -> k3 m i == a * k1 m i + b * k2 m i.
Proof.
  intros K1 K2 K3 Hm Hi HS.
  rewrite (kernel_form pow undef (with_dt C d1) L _ _ _ _ Hng K1 m i Hi), (kernel_form pow undef (with_dt C d2) L _ _ _ _ Hng K2 m i Hi), (kernel_form pow undef (with_dt C d3) L _ _ _ _ Hng K3 m i Hi).
  change (rps (with_dt C d1)) with (rps C). change (rps (with_dt C d2)) with (rps C). change (rps (with_dt C d3)) with (rps C).
  change (pre (with_dt C d1)) with (pre C). change (pre (with_dt C d2)) with (pre C). change (pre (with_dt C d3)) with (pre C).
  change (second (with_dt C d1) L) with (second C L). change (second (with_dt C d2) L) with (second C L). change (second (with_dt C d3) L) with (second C L).
  change (c_nw (with_dt C d1)) with nw. change (c_nw (with_dt C d2)) with nw. change (c_nw (with_dt C d3)) with nw.
  assert (S' : forall j, (-2 <= j - i <= 2)%Z -> cell_sum j) by (intros j Hj; replace j with (i + (j - i))%Z by lia; apply HS; exact Hj).
  destruct (S' i ltac:(lia)) as [Q _]. specialize (Q m Hm). destruct (dtdx_sum i (S' i ltac:(lia))) as [D1 D2].
  destruct (iface_sum (i - 1)) as [_ W1]; [apply S'; lia|apply S'; lia|]. destruct (iface_sum i) as [_ W2]; [apply S'; lia|apply S'; lia|].
  destruct (W1 m Hm) as (_ & P1 & _). destruct (W2 m Hm) as (P2 & _ & _).
  unfold update. destruct (second C L) eqn:E; rewrite Q, P1, P2, D1, D2; [|ring].
  assert (HL : forall p, (0 <= p < Z.of_nat nw)%Z -> c_mthlim C p = 0%Z).
  { destruct HU as [U|U]; [|exact U]. unfold second in E. rewrite U in E. destruct L; discriminate. }
  assert (F : forall dd e R n, corr nw (pre C L) (fac pow undef (with_dt C dd) L e R) e R m n == corr nw (pre C L) (fun _ _ => 1) e R m n).
  { intros dd e R n. unfold corr. apply zsum_eq. intros p Hp. rewrite (fac_one pow undef (with_dt C dd) L e R) by exact HL. reflexivity. }
  rewrite !F. rewrite (corr_sum m (i + 1)), (corr_sum m i) by (first [exact Hm|apply S'; lia]). ring.
Qed.
Lemma cfl_sum k1 k2 k3 c1 c2 c3 : (0 <= mx)%Z ->
  kernel pow undef L (with_dt C d1) q1 x1 = Some (k1, c1) -> kernel pow undef L (with_dt C d2) q2 x2 = Some (k2, c2) ->
  kernel pow undef L (with_dt C d3) q3 x3 = Some (k3, c3) ->
  (forall i, (0 <= i < mx + 2 * ng)%Z -> cell_sum i) -> c1 == c3 /\ c2 == c3.
Proof.
  intros Hmx K1 K2 K3 HS.
  destruct (kernel_cfl_fst pow undef (with_dt C d1) L _ _ _ _ K1 Hmx) as (l1 & M1 & I1).
  destruct (kernel_cfl_fst pow undef (with_dt C d2) L _ _ _ _ K2 Hmx) as (l2 & M2 & I2).
  destruct (kernel_cfl_fst pow undef (with_dt C d3) L _ _ _ _ K3 Hmx) as (l3 & M3 & I3).
  change (rps (with_dt C d1)) with (rps C) in I1. change (rps (with_dt C d2)) with (rps C) in I2. change (rps (with_dt C d3)) with (rps C) in I3.
  change (first_iface (with_dt C d1)) with (first_iface C) in I1. change (first_iface (with_dt C d2)) with (first_iface C) in I2.
  change (first_iface (with_dt C d3)) with (first_iface C) in I3.
  change (c_nw (with_dt C d1)) with nw in I1. change (c_nw (with_dt C d2)) with nw in I2. change (c_nw (with_dt C d3)) with nw in I3.
  assert (X : forall p j, (0 <= p < Z.of_nat nw)%Z -> (first_iface C L <= j < ng + mx)%Z ->
     (e1 (j + 1)%Z * spd R1 p j == e3 (j + 1)%Z * spd R3 p j /\ - e1 j * spd R1 p j == - e3 j * spd R3 p j) /\
     (e2 (j + 1)%Z * spd R2 p j == e3 (j + 1)%Z * spd R3 p j /\ - e2 j * spd R2 p j == - e3 j * spd R3 p j)).
  { intros p j Hp Hj. assert (Hj' : (0 <= j < mx + 2 * ng - 1)%Z) by (unfold first_iface in Hj; destruct L; lia).
    destruct (iface_sum j) as [S _]; [apply HS; lia|apply HS; lia|]. destruct (S p Hp) as [S1 S2].
    destruct (dtdx_sum j) as [A1 A2]; [apply HS; lia|]. destruct (dtdx_sum (j + 1)) as [B1 B2]; [apply HS; lia|].
    rewrite A1, A2, B1, B2, S1, S2. repeat split; reflexivity. }
  assert (G : forall c c' l l' (e e' : Z -> Q) R R', is_max c 0 l -> is_max c' 0 l' ->
     (forall x, In x l <-> exists p j, (0 <= p < Z.of_nat nw)%Z /\ (first_iface C L <= j < ng + mx)%Z /\ In x (courant e R p j)) ->
     (forall x, In x l' <-> exists p j, (0 <= p < Z.of_nat nw)%Z /\ (first_iface C L <= j < ng + mx)%Z /\ In x (courant e' R' p j)) ->
     (forall p j, (0 <= p < Z.of_nat nw)%Z -> (first_iface C L <= j < ng + mx)%Z ->
        e (j + 1)%Z * spd R p j == e' (j + 1)%Z * spd R' p j /\ - e j * spd R p j == - e' j * spd R' p j) -> c <= c').
  { intros c c' l l' e e' R R' M M' I I' HX. apply (is_max_le _ _ _ _ _ _ M M'); [lra|]. intros x Hx.
    apply I in Hx as (p & j & Hp & Hj & Hx). destruct (HX p j Hp Hj) as [X1 X2].
    destruct Hx as [<-|[<-|[]]]; eexists; (split; [apply I'; exists p, j; split; [exact Hp|]; split; [exact Hj|]|]);
      [left; reflexivity|rewrite X1; apply Qle_refl|right; left; reflexivity|rewrite X2; apply Qle_refl]. }
  split; apply Qle_antisym.
  - apply (G _ _ _ _ _ _ _ _ M1 M3 I1 I3). intros p j Hp Hj. exact (proj1 (X p j Hp Hj)).
  - apply (G _ _ _ _ _ _ _ _ M3 M1 I3 I1). intros p j Hp Hj. destruct (X p j Hp Hj) as [[Y1 Y2] _]. rewrite Y1, Y2. split; reflexivity.
  - apply (G _ _ _ _ _ _ _ _ M2 M3 I2 I3). intros p j Hp Hj. exact (proj2 (X p j Hp Hj)).
  - apply (G _ _ _ _ _ _ _ _ M3 M2 I3 I2). intros p j Hp Hj. destruct (X p j Hp Hj) as [_ [Y1 Y2]]. rewrite Y1, Y2. split; reflexivity.
Qed.
End Kernel.

(** Stopping depends on the capacity only. *)
Lemma kernel_stops pow undef L C C' (qa xa qb xb : Z -> Z -> Q) :
  c_ng C' = c_ng C -> c_bc C' = c_bc C -> c_capa C' = c_capa C -> (0 <= ncells (c_bc C))%Z ->
  (forall k i, c_capa C = Some k -> (0 <= i < ncells (c_bc C) + 2 * Z.of_nat (c_ng C))%Z -> xa k i == xb k i) ->
  kernel pow undef L C qa xa = None -> kernel pow undef L C' qb xb = None.
Proof.
  intros E1 E2 E3 Hn H HK. destruct (kernel_stopped pow undef C L qa xa HK) as (-> & k & i & Ek & Hi & Hle).
  cbn [kernel]. rewrite E1, E2, E3, Ek. cbn [option_map f_dtdx].
  assert (X : forallb (fun j => qltb 0 (xb k (j + Z.of_nat (c_ng C) - 1)%Z))
    (zrange (1 - Z.of_nat (c_ng C)) (Z.to_nat (ncells (c_bc C) + 2 * Z.of_nat (c_ng C)))) = false).
  { apply not_true_iff_false. intro T. rewrite forallb_forall in T.
    specialize (T (i - Z.of_nat (c_ng C) + 1)%Z). rewrite (H k i Ek Hi) in Hle.
    assert (In (i - Z.of_nat (c_ng C) + 1)%Z (zrange (1 - Z.of_nat (c_ng C)) (Z.to_nat (ncells (c_bc C) + 2 * Z.of_nat (c_ng C))))) as Hin.
    { unfold zrange. apply in_map_iff. exists (Z.to_nat i). split; [lia|]. apply in_seq. lia. }
    specialize (T Hin). apply qltb_lt in T. replace (i - Z.of_nat (c_ng C) + 1 + Z.of_nat (c_ng C) - 1)%Z with i in T by lia. lra. }
  rewrite X. reflexivity.
Qed.

Section Step.
Variables (pow : Q -> Q -> Q) (undef : Q -> Q -> Z -> Q) (L : lang) (C : settings) (a b d1 d2 d3 : Q).
Hypothesis Hd1 : d1 == d3.
Hypothesis Hd2 : d2 == d3.
Hypothesis HR : linear_solver (c_neq C) (c_nw C) (c_naux C) (c_rp C).
Hypothesis HU : unlimited C.
Hypothesis Hcapa : capa_in_aux C.
Hypothesis Hng : (2 <= c_ng C)%nat.
Hypothesis HF : fit_dim (c_ng C) (Nat.ltb 0 (c_naux C)) (Z.of_nat (c_neq C)) (c_bc C).
Notation ng := (Z.of_nat (c_ng C)).
Notation D := (c_bc C).

Lemma ghost_sum q1 q2 q3 m i : sum_q C a b q1 q2 q3 -> (0 <= m < Z.of_nat (c_neq C))%Z -> (- ng <= i < ncells D + ng)%Z ->
  q_ghost_value Q Qopp [D] q3 m [i] == a * q_ghost_value Q Qopp [D] q1 m [i] + b * q_ghost_value Q Qopp [D] q2 m [i].
Proof.
  intros H Hm Hi. destruct HF as (_ & _ & _ & S1 & S2 & W & _).
  pose proof (source_range C Hng (q_lo D) (q_hi D) i S1 S2 W Hi) as SR. specialize (H m _ Hm SR).
  unfold q_ghost_value. cbn [combine map rev app fold_right fst snd]. destruct (_ && _)%bool; rewrite H; ring.
Qed.
Lemma ghost_same x x' m i : same_x C x x' -> (0 <= m < Z.of_nat (c_naux C))%Z -> (- ng <= i < ncells D + ng)%Z ->
  aux_ghost_value Q [D] x m [i] == aux_ghost_value Q [D] x' m [i].
Proof.
  intros H Hm Hi. destruct HF as (_ & _ & _ & _ & _ & _ & A). destruct A as (S1 & S2 & W); [apply Nat.ltb_lt; lia|].
  unfold aux_ghost_value. cbn [combine map fst snd]. apply H; [exact Hm|]. exact (source_range C Hng (a_lo D) (a_hi D) i S1 S2 W Hi).
Qed.

Theorem step_sum q1 x1 q2 x2 q3 x3 s1 t1 s2 t2 s3 t3 : sum_data C a b (q1, x1) (q2, x2) (q3, x3) ->
  match step_hyperbolic pow undef L (with_dt C d1) q1 x1 s1 t1, step_hyperbolic pow undef L (with_dt C d2) q2 x2 s2 t2,
        step_hyperbolic pow undef L (with_dt C d3) q3 x3 s3 t3 with
  | Stepped u1 c1, Stepped u2 c2, Stepped u3 c3 =>
      c1 == c3 /\ c2 == c3 /\ forall m i, (0 <= m < Z.of_nat (c_neq C))%Z -> (0 <= i < cells C)%Z -> u3 m i == a * u1 m i + b * u2 m i
  | Stopped, Stopped, Stopped => True
  | _, _, _ => False
  end.
Proof.
  intros (HQ & HX1 & HX2). cbn [fst snd] in HQ, HX1, HX2.
  destruct (step_ok pow undef (with_dt C d1) L q1 x1 s1 t1) as (g1 & h1 & G1 & A1 & ->); [cbn; lia|exact HF|].
  destruct (step_ok pow undef (with_dt C d2) L q2 x2 s2 t2) as (g2 & h2 & G2 & A2 & ->); [cbn; lia|exact HF|].
  destruct (step_ok pow undef (with_dt C d3) L q3 x3 s3 t3) as (g3 & h3 & G3 & A3 & ->); [cbn; lia|exact HF|].
  cbn [with_dt c_ng c_bc c_neq c_naux] in G1, G2, G3, A1, A2, A3.
  assert (Hmx : (1 <= ncells D)%Z) by (destruct HF as (_ & _ & _ & _ & _ & (_ & _ & W) & _); exact W).
  assert (CS : forall i, (0 <= i < ncells D + 2 * ng)%Z -> cell_sum C a b g1 h1 g2 h2 g3 h3 i).
  { intros i Hi. split; intros m Hm.
    - replace i with (i - ng + ng)%Z by lia. rewrite G1, G2, G3 by lia. apply ghost_sum; [exact HQ|exact Hm|lia].
    - assert (X : forall d, has_aux (with_dt C d) = true) by (intro; apply Nat.ltb_lt; cbn [with_dt c_naux]; lia).
      replace i with (i - ng + ng)%Z by lia. rewrite A1, A2, A3 by (first [apply X|lia]). split; apply ghost_same; first [assumption|lia]. }
  assert (Y : forall k i, c_capa C = Some k -> (0 <= i < ncells D + 2 * ng)%Z -> h1 k i == h3 k i /\ h2 k i == h3 k i).
  { intros k i Ek Hi. destruct (CS i Hi) as [_ K]. apply K. exact (Hcapa k Ek). }
  destruct (kernel pow undef L (with_dt C d3) g3 h3) as [[u3 c3]|] eqn:K3.
  - destruct (kernel pow undef L (with_dt C d1) g1 h1) as [[u1 c1]|] eqn:K1.
    2: { exfalso. rewrite (kernel_stops pow undef L (with_dt C d1) (with_dt C d3) g1 h1 g3 h3) in K3; try reflexivity; try discriminate; [cbn; lia| |exact K1].
         intros k i Ek Hi. exact (proj1 (Y k i Ek Hi)). }
    destruct (kernel pow undef L (with_dt C d2) g2 h2) as [[u2 c2]|] eqn:K2.
    2: { exfalso. rewrite (kernel_stops pow undef L (with_dt C d2) (with_dt C d3) g2 h2 g3 h3) in K3; try reflexivity; try discriminate; [cbn; lia| |exact K2].
         intros k i Ek Hi. exact (proj2 (Y k i Ek Hi)). }
    destruct (cfl_sum pow undef L C a b d1 d2 d3 Hd1 Hd2 HR Hcapa Hng g1 h1 g2 h2 g3 h3 u1 u2 u3 c1 c2 c3 ltac:(lia) K1 K2 K3 CS) as [E1 E2].
    split; [exact E1|]. split; [exact E2|]. intros m i Hm Hi. cbn [with_dt c_ng]. unfold cells in Hi.
    apply (cell_step pow undef L C a b d1 d2 d3 Hd1 Hd2 HR HU Hcapa Hng g1 h1 g2 h2 g3 h3 u1 u2 u3 c1 c2 c3 m (i + ng) K1 K2 K3 Hm); [lia|].
    intros k Hk. apply CS. lia.
  - rewrite (kernel_stops pow undef L (with_dt C d3) (with_dt C d1) g3 h3 g1 h1); try reflexivity; [|cbn; lia| |exact K3].
    2: { intros k i Ek Hi. symmetry. exact (proj1 (Y k i Ek Hi)). }
    rewrite (kernel_stops pow undef L (with_dt C d3) (with_dt C d2) g3 h3 g2 h2); try reflexivity; try exact I; [cbn; lia| |exact K3].
    intros k i Ek Hi. symmetry. exact (proj2 (Y k i Ek Hi)).
Qed.
End Step.
