(** Proofs about monotone first-order schemes (C153). *)
From Verif Require Import Base TimeModel TimeSpec TimeProofs TimeProofs2 TimeProofs3 TimeProofs4 BCModel BCSpec LimiterModel Classic1DModel Classic1DSpec Classic1DProofs Classic1DProofs2 Classic1DProofs3
  Classic1DProofs4 Classic1DProofs5 Classic1DProps RunModel SymSpec SymProofs SymProofs2 SymProofs3 MonoSpec.

Section Cell.
Variables (lo hi lam e : Q) (nw : nat) (rp : rpsolver).
Hypothesis HM : monotone_solver lo hi lam rp.
Hypothesis HR : resting_bounds lo hi nw rp.
Hypothesis He : 0 <= e.
Hypothesis Hl : e * lam <= 1.
Notation btw := (between lo hi).

(** The new value of a cell with left and right neighbours *)
Definition cell al ac ar l c r := c - e * (o_ap (rp [l] [c] al ac) 0 + o_am (rp [c] [r] ac ar) 0).

Lemma cell_mono al ac ar l l' c c' r r' : btw l -> btw l' -> btw c -> btw c' -> btw r -> btw r' -> l <= l' -> c <= c' -> r <= r' ->
  cell al ac ar l c r <= cell al ac ar l' c' r'.
Proof.
  destruct HM as (M1 & M2 & M3). intros B1 B2 B3 B4 B5 B6 L1 L2 L3. unfold cell.
  pose proof (M1 al ac l l' c B1 B2 B3 L1) as H1. pose proof (M2 ac ar c r r' B3 B5 B6 L3) as H2.
  pose proof (M3 al ac ar l' c c' r' B2 B3 B4 B6 L2) as H3.
  set (a0 := o_ap (rp [l] [c] al ac) 0) in *. set (a1 := o_ap (rp [l'] [c] al ac) 0) in *. set (a2 := o_ap (rp [l'] [c'] al ac) 0) in *.
  set (b0 := o_am (rp [c] [r] ac ar) 0) in *. set (b1 := o_am (rp [c] [r'] ac ar) 0) in *. set (b2 := o_am (rp [c'] [r'] ac ar) 0) in *.
  assert (X : e * (a2 + b2 - (a1 + b1)) <= e * (lam * (c' - c))) by (rewrite !(Qmult_comm e); apply Qmult_le_compat_r; [lra|exact He]).
  assert (Y : e * lam * (c' - c) <= 1 * (c' - c)) by (apply Qmult_le_compat_r; [exact Hl|lra]).
  assert (Z : 0 <= e * (a0 - a1 + (b0 - b1))) by (apply Qmult_le_0_compat; lra).
  lra.
Qed.
Lemma cell_between al ac ar l c r : btw l -> btw c -> btw r -> btw (cell al ac ar l c r).
Proof.
  intros B1 B2 B3. assert (LH : lo <= hi) by (destruct B1; lra). destruct HR as [R1 R2].
  assert (BL : btw lo) by (split; [apply Qle_refl|exact LH]). assert (BH : btw hi) by (split; [exact LH|apply Qle_refl]).
  assert (E1 : cell al ac ar lo lo lo == lo).
  { unfold cell. destruct (R1 al ac 0%Z ltac:(lia)) as (_ & P & _). destruct (R1 ac ar 0%Z ltac:(lia)) as (A & _ & _). rewrite P, A. ring. }
  assert (E2 : cell al ac ar hi hi hi == hi).
  { unfold cell. destruct (R2 al ac 0%Z ltac:(lia)) as (_ & P & _). destruct (R2 ac ar 0%Z ltac:(lia)) as (A & _ & _). rewrite P, A. ring. }
  pose proof (cell_mono al ac ar lo l lo c lo r BL B1 BL B2 BL B3 (proj1 B1) (proj1 B2) (proj1 B3)) as X.
  pose proof (cell_mono al ac ar l hi c hi r hi B1 BH B2 BH B3 BH (proj2 B1) (proj2 B2) (proj2 B3)) as Y.
  rewrite E1 in X. rewrite E2 in Y. split; assumption.
Qed.
End Cell.

Section Step.
Variables (pow : Q -> Q -> Q) (undef : Q -> Q -> Z -> Q) (L : lang) (C : settings) (lo hi lam d : Q) (x : arr Q).
Hypothesis HM : monotone_solver lo hi lam (c_rp C).
Hypothesis HR : resting_bounds lo hi (c_nw C) (c_rp C).
Hypothesis HO : first_order C.
Hypothesis HS : small_steps C lam d x.
Notation ng := (Z.of_nat (c_ng C)).
Notation D := (c_bc C).
Definition qsrc (i : Z) : Z := source_cell (q_lo D) (q_hi D) (ncells D) i.
Definition xsrc (i : Z) : Z := source_cell (a_lo D) (a_hi D) (ncells D) i.
(** The auxiliary values of a cell, ghost cells included *)
Definition xvals (i : Z) : list Q := vec (c_naux C) (fun m i => x m [xsrc i]) i.
Definition eof (i : Z) : Q := d / (c_dx C * capacity C (flat x) i).
Definition next (q : arr Q) (i : Z) : Q :=
  cell (eof i) (c_rp C) (xvals (i - 1)) (xvals i) (xvals (i + 1)) (q 0%Z [qsrc (i - 1)]) (q 0%Z [i]) (q 0%Z [qsrc (i + 1)]).

Lemma eof_ok i : (0 <= i < cells C)%Z -> 0 <= eof i /\ eof i * lam <= 1.
Proof.
  intro Hi. destruct HS as (H1 & H2 & H3). destruct (H3 i Hi) as [H4 H5]. split; [|exact H5]. unfold eof.
  apply Qlt_le_weak. apply Qlt_shift_div_l; [|rewrite Qmult_0_l; exact H1]. apply Qmult_lt_0_compat; assumption.
Qed.
Lemma qsrc_in i : (- ng <= i < ncells D + ng)%Z -> (0 <= qsrc i < ncells D)%Z.
Proof.
  intro Hi. destruct HO as (_ & _ & Hg & _ & HF & _). destruct HF as (_ & _ & _ & S1 & S2 & W & _).
  exact (source_range C Hg (q_lo D) (q_hi D) i S1 S2 W Hi).
Qed.
Lemma step_next q s t : exists u c, step_hyperbolic pow undef L (with_dt C d) q x s t = Stepped u c /\
  forall i, (0 <= i < cells C)%Z -> u 0%Z i == next q i.
Proof.
  destruct HO as (Hn & Ho & Hg & Hc & HF & W1 & W2).
  destruct (step_ok pow undef (with_dt C d) L q x s t) as (g & h & G & A & ->); [cbn; lia|cbn; rewrite Hn; exact HF|].
  cbn [with_dt c_ng c_bc c_neq c_naux] in G, A.
  assert (Hmx : (1 <= ncells D)%Z) by (destruct HF as (_ & _ & _ & _ & _ & (_ & _ & W) & _); exact W).
  assert (G' : forall i, (- ng <= i < ncells D + ng)%Z -> g 0%Z (i + ng)%Z = q 0%Z [qsrc i]).
  { intros i Hi. rewrite G by exact Hi. unfold q_ghost_value. cbn [combine map rev app fold_right fst snd].
    assert (behind_wall (q_lo D) (q_hi D) (ncells D) i = false) as ->; [|rewrite andb_false_r; reflexivity].
    unfold behind_wall. destruct (Z.ltb i 0), (Z.leb (ncells D) i), (q_lo D), (q_hi D); try reflexivity; congruence. }
  assert (A' : forall m i, (0 <= m < Z.of_nat (c_naux C))%Z -> (- ng <= i < ncells D + ng)%Z -> h m (i + ng)%Z = x m [xsrc i]).
  { intros m i Hm Hi. rewrite A; [|apply Nat.ltb_lt; cbn [with_dt c_naux]; lia|exact Hi]. reflexivity. }
  assert (XR : forall i, (0 < c_naux C)%nat -> (- ng <= i < ncells D + ng)%Z -> (0 <= xsrc i < ncells D)%Z).
  { intros i Hx Hi. destruct HF as (_ & _ & _ & _ & _ & _ & B). destruct B as (S1 & S2 & W); [apply Nat.ltb_lt; exact Hx|].
    exact (source_range C Hg (a_lo D) (a_hi D) i S1 S2 W Hi). }
  destruct (kernel pow undef L (with_dt C d) g h) as [[u c]|] eqn:K.
  - do 2 eexists. split; [reflexivity|]. intros i Hi. unfold cells in Hi.
    rewrite (kernel_form pow undef (with_dt C d) L g h u c Hg K 0%Z (i + ng)%Z) by (cbn; lia).
    unfold update. assert (second (with_dt C d) L = false) as -> by (unfold second; cbn [with_dt c_order]; rewrite Ho; destruct L; reflexivity).
    cbn [rps solve_rps apdq amdq]. rewrite !Z.add_0_r. cbn [with_dt c_rp c_neq c_naux]. rewrite Hn.
    assert (V : forall j, (- ng <= j < ncells D + ng)%Z -> vec (c_naux C) h (j + ng)%Z = xvals j).
    { intros j Hj. unfold xvals. apply vec_ext. intros m Hm. apply A'; [exact Hm|exact Hj]. }
    assert (U : forall j, (- ng <= j < ncells D + ng)%Z -> vec 1 g (j + ng)%Z = [q 0%Z [qsrc j]]).
    { intros j Hj. rewrite <- G' by exact Hj. reflexivity. }
    assert (QI : qsrc i = i) by (unfold qsrc, source_cell; destruct (Z.ltb_spec i 0); [lia|]; destruct (Z.leb_spec (ncells D) i); [lia|reflexivity]).
    assert (XI : xsrc i = i) by (unfold xsrc, source_cell; destruct (Z.ltb_spec i 0); [lia|]; destruct (Z.leb_spec (ncells D) i); [lia|reflexivity]).
    assert (EE : dtdx_of (with_dt C d) h (i + ng)%Z == eof i).
    { unfold dtdx_of, eof, capacity. cbn [with_dt c_dt c_dx c_capa]. destruct (c_capa C) as [k|] eqn:Ek; cbn [option_map py_dtdx].
      - rewrite (A' k i (Hc k Ek)) by lia. rewrite XI. reflexivity.
      - rewrite Qmult_1_r. reflexivity. }
    replace (i + ng - 1 + 1)%Z with (i + ng)%Z by lia. replace (i + ng - 1)%Z with ((i - 1) + ng)%Z by lia.
    replace (i + ng + 1)%Z with ((i + 1) + ng)%Z by lia.
    rewrite !V, !U, EE by lia. unfold next, cell. rewrite QI. rewrite G' by lia. rewrite QI. ring.
  - exfalso. destruct (kernel_stopped pow undef (with_dt C d) L g h K) as (_ & k & i & Ek & Hi & Hle).
    cbn [with_dt c_capa c_bc c_ng] in Ek, Hi. assert (Hx : (0 < c_naux C)%nat) by (specialize (Hc k Ek); lia).
    replace i with (i - ng + ng)%Z in Hle by lia. rewrite (A' k) in Hle by (first [exact (Hc k Ek)|lia]).
    destruct HS as (_ & _ & H). destruct (H (xsrc (i - ng))) as [P _]; [apply XR; [exact Hx|lia]|].
    unfold capacity, flat in P. rewrite Ek in P. lra.
Qed.

Lemma next_mono q1 q2 i : ordered C lo hi q1 q2 -> (0 <= i < cells C)%Z -> lo <= next q1 i /\ next q1 i <= next q2 i /\ next q2 i <= hi.
Proof.
  intros H Hi. destruct (eof_ok i Hi) as [E1 E2]. unfold cells in *. assert (Hg : (2 <= c_ng C)%nat) by apply HO.
  pose proof (H i Hi) as (A1 & A2 & A3). pose proof (H _ (qsrc_in (i - 1) ltac:(lia))) as (B1 & B2 & B3).
  pose proof (H _ (qsrc_in (i + 1) ltac:(lia))) as (C1 & C2 & C3). unfold next. split; [|split].
  - apply (cell_between lo hi lam (eof i) (c_nw C) (c_rp C) HM HR E1 E2); split; lra.
  - apply (cell_mono lo hi lam (eof i) (c_rp C) HM E1 E2); first [split; lra|assumption].
  - apply (cell_between lo hi lam (eof i) (c_nw C) (c_rp C) HM HR E1 E2); split; lra.
Qed.
End Step.

(** Crandall and Tartar: what keeps the order and the total does not increase the distance. *)
Definition qmax (a b : Q) : Q := if qleb a b then b else a.
Lemma qmax_cases a b : (a <= b /\ qmax a b = b) \/ (b < a /\ qmax a b = a).
Proof.
  unfold qmax. destruct (qleb a b) eqn:E; [left|right]; (split; [|reflexivity]); [apply qleb_le; exact E|].
  apply Qnot_le_lt. intro X. apply qleb_le in X. congruence.
Qed.
Lemma qabs_max a b : Qabs (a - b) == 2 * qmax a b - a - b.
Proof.
  destruct (qmax_cases a b) as [[H ->]|[H ->]]; [rewrite Qabs_neg by lra|rewrite Qabs_pos by lra]; ring.
Qed.

Section Distance.
Variables (pow : Q -> Q -> Q) (undef : Q -> Q -> Z -> Q) (L : lang) (C : settings) (lo hi lam d : Q) (x : arr Q) (flux : list Q -> list Q -> Z -> Q).
Hypothesis HM : monotone_solver lo hi lam (c_rp C).
Hypothesis HR : resting_bounds lo hi (c_nw C) (c_rp C).
Hypothesis HO : first_order C.
Hypothesis HS : small_steps C lam d x.
Hypothesis HC : conservative 1 flux (c_rp C).
Hypothesis HP : periodic_bc (c_bc C).

Lemma total_next q s t u c : step_hyperbolic pow undef L (with_dt C d) q x s t = Stepped u c ->
  total C 0 (flat x) u 0 == total C 0 (flat x) (flat q) 0.
Proof.
  intro E. destruct HO as (Hn & _ & Hg & Hc & HF & _).
  pose proof (C17_periodic_conservation pow undef L (with_dt C d) flux q x s t) as H. rewrite E in H.
  cbn [with_dt c_neq c_rp c_ng c_bc] in H. rewrite Hn in H. apply H; try assumption; try lia.
  - destruct HF as (_ & _ & _ & _ & _ & (W & _ & _) & _). destruct HP as (P & _). destruct W as [W|W]; [congruence|exact W].
  - intros i Hi X. destruct HS as (_ & _ & S3). destruct (S3 i Hi) as [P _].
    change (capacity (with_dt C d) (flat x) i) with (capacity C (flat x) i) in X. lra.
Qed.
Lemma distance_step q1 q2 s1 t1 s2 t2 u1 c1 u2 c2 :
  (forall i, (0 <= i < cells C)%Z -> between lo hi (q1 0%Z [i]) /\ between lo hi (q2 0%Z [i])) ->
  step_hyperbolic pow undef L (with_dt C d) q1 x s1 t1 = Stepped u1 c1 -> step_hyperbolic pow undef L (with_dt C d) q2 x s2 t2 = Stepped u2 c2 ->
  zsum 0 (Z.to_nat (cells C)) (fun i => capacity C (flat x) i * Qabs (u1 0%Z i - u2 0%Z i)) <= distance C x q1 q2.
Proof.
  intros HB E1 E2. set (w := (fun m ix => qmax (q1 m ix) (q2 m ix)) : arr Q).
  assert (O1 : ordered C lo hi q1 w).
  { intros i Hi. destruct (HB i Hi) as [[B1 B2] [B3 B4]]. unfold w. destruct (qmax_cases (q1 0%Z [i]) (q2 0%Z [i])) as [[K ->]|[K ->]]; lra. }
  assert (O2 : ordered C lo hi q2 w).
  { intros i Hi. destruct (HB i Hi) as [[B1 B2] [B3 B4]]. unfold w. destruct (qmax_cases (q1 0%Z [i]) (q2 0%Z [i])) as [[K ->]|[K ->]]; lra. }
  destruct (step_next pow undef L C lam d x HO HS q1 s1 t1) as (v1 & e1 & F1 & N1). rewrite E1 in F1. injection F1 as <- <-.
  destruct (step_next pow undef L C lam d x HO HS q2 s2 t2) as (v2 & e2 & F2 & N2). rewrite E2 in F2. injection F2 as <- <-.
  destruct (step_next pow undef L C lam d x HO HS w s1 t1) as (uw & cw & Ew & Nw).
  pose proof (total_next _ _ _ _ _ E1) as T1. pose proof (total_next _ _ _ _ _ E2) as T2. pose proof (total_next _ _ _ _ _ Ew) as Tw.
  unfold total in T1, T2, Tw. unfold distance.
  set (k := capacity C (flat x)) in *. set (n := Z.to_nat (cells C)) in *.
  apply (Qle_trans _ (zsum 0 n (fun i => k i * uw 0%Z i - k i * u1 0%Z i + (k i * uw 0%Z i - k i * u2 0%Z i)))).
  - apply zsum_le. intros i Hi. assert (Hi' : (0 <= i < cells C)%Z) by (unfold n in Hi; lia).
    destruct (next_mono C lo hi lam d x HM HR HO HS q1 w i O1 Hi') as (_ & M1 & _). destruct (next_mono C lo hi lam d x HM HR HO HS q2 w i O2 Hi') as (_ & M2 & _).
    rewrite <- (N1 i Hi'), <- (Nw i Hi') in M1. rewrite <- (N2 i Hi'), <- (Nw i Hi') in M2.
    destruct HS as (_ & _ & S3). destruct (S3 i Hi') as [P _]. fold k in P.
    assert (X : Qabs (u1 0%Z i - u2 0%Z i) <= (uw 0%Z i - u1 0%Z i) + (uw 0%Z i - u2 0%Z i)) by (apply Qabs_case; intros; lra).
    apply (Qle_trans _ (k i * ((uw 0%Z i - u1 0%Z i) + (uw 0%Z i - u2 0%Z i)))).
    + rewrite !(Qmult_comm (k i)). apply Qmult_le_compat_r; [exact X|lra].
    + apply Qle_lteq. right. ring.
  - rewrite zsum_plus, !zsum_minus, T1, T2, Tw.
    apply Qle_lteq. right.
    transitivity (zsum 0 n (fun i => k i * flat w 0%Z i - k i * flat q1 0%Z i + (k i * flat w 0%Z i - k i * flat q2 0%Z i))).
    + rewrite zsum_plus, !zsum_minus. reflexivity.
    + apply zsum_eq. intros i Hi. rewrite qabs_max. unfold flat, w. ring.
Qed.
End Distance.

(** Two runs of the same program with the same fixed step: what every pair of accepted steps keeps *)
Section Pair.
Context {DQ DX E : Type}.
Variable hyp : Q -> sol DQ DX -> DQ * DX * Q.
Variable sp : Z.
Variable before : sol DQ DX -> DQ * DX.
Variable R : nat -> sol DQ DX -> sol DQ DX -> Prop.
Variable d : Q.
Hypothesis HR : forall k so1 so2 q1 x1 c1 q2 x2 c2, R k so1 so2 ->
  hyp d (mkSol (fst (before so1)) (snd (before so1)) (st so1)) = (q1, x1, c1) ->
  hyp d (mkSol (fst (before so2)) (snd (before so2)) (st so2)) = (q2, x2, c2) ->
  R (S k) (mkSol q1 x1 (Qred (st so1 + inject_Z 1 * d))) (mkSol q2 x2 (Qred (st so2 + inject_Z 1 * d))).

Lemma fstep_none (s s' : solver E) so so' ev : dt_variable s = false -> fstep None hyp sp before s so = (s', so', ev, None) ->
  dt_variable s' = false /\ dt s' = dt s /\
  exists q x c, hyp (dt s) (mkSol (fst (before so)) (snd (before so)) (st so)) = (q, x, c) /\ so' = mkSol q x (Qred (st so + inject_Z 1 * dt s)).
Proof.
  intros Hv HF. destruct (fstep_inv None hyp sp before s so s' so' ev None Hv HF) as ((P1 & _) & Hdt & _).
  split; [congruence|]. split; [exact Hdt|]. unfold fstep, attempt in HF. unfold classic_step in HF. cbn [st] in HF.
  assert (HG : get_dt get_dt_new (st so) (st so) None s = set_dt_old (Some (dt s)) s).
  { unfold get_dt, get_dt_clip, get_dt_choose. rewrite Hv. reflexivity. }
  rewrite HG in HF. cbv zeta in HF. cbn [dt set_cfl set_dt_old] in HF.
  destruct (hyp (dt s) (mkSol (fst (before so)) (snd (before so)) (st so))) as [[q x] c] eqn:EH.
  exists q, x, c. split; [reflexivity|].
  destruct (qleb _ _) in HF; cbn [dt_variable set_accept_step set_st_cflmax set_cfl set_dt_old] in HF; rewrite Hv in HF;
    (destruct (accept_reject_step _) in HF; inversion HF; reflexivity).
Qed.
Lemma fiter_pair n : forall k (s1 s2 s1' s2' : solver E) so1 so2 so1' so2' tr1 tr2 tr1' tr2',
  dt_variable s1 = false -> dt_variable s2 = false -> dt s1 = d -> dt s2 = d -> R k so1 so2 ->
  fiter None hyp sp before n s1 so1 tr1 = (s1', so1', tr1', None) -> fiter None hyp sp before n s2 so2 tr2 = (s2', so2', tr2', None) ->
  R (k + n) so1' so2'.
Proof.
  induction n as [|n IH]; intros k s1 s2 s1' s2' so1 so2 so1' so2' tr1 tr2 tr1' tr2' V1 V2 D1 D2 HK F1 F2; cbn [fiter] in F1, F2.
  - inversion F1; subst. inversion F2; subst. rewrite Nat.add_0_r. exact HK.
  - destruct (fstep None hyp sp before s1 so1) as [[[t1 u1] ev1] e1] eqn:G1. destruct (fstep None hyp sp before s2 so2) as [[[t2 u2] ev2] e2] eqn:G2.
    destruct e1 as [y|]; [discriminate|]. destruct e2 as [y|]; [discriminate|].
    destruct (fstep_none _ _ _ _ _ V1 G1) as (W1 & X1 & q1 & x1 & c1 & H1 & ->). destruct (fstep_none _ _ _ _ _ V2 G2) as (W2 & X2 & q2 & x2 & c2 & H2 & ->).
    rewrite D1 in *. rewrite D2 in *. replace (k + S n)%nat with (S k + n)%nat by lia.
    refine (IH (S k) t1 t2 _ _ _ _ _ _ _ _ _ _ W1 W2 X1 X2 _ F1 F2). exact (HR k so1 so2 q1 x1 c1 q2 x2 c2 HK H1 H2).
Qed.
(** Runs of evolve_to_time over N fixed steps *)
Lemma evolve_pair (s1 s2 : solver E) so1 so2 te N :
  dt_variable s1 = false -> dt_variable s2 = false -> dt s1 = d -> dt s2 = d -> canonical d -> tol10 < d -> st so2 == st so1 ->
  te == st so1 + inject_Z N * d -> (1 <= N)%Z -> eps14 * te <= d -> R 0 so1 so2 ->
  let r1 := classic_evolve None hyp sp before s1 so1 (Some te) in let r2 := classic_evolve None hyp sp before s2 so2 (Some te) in
  r_err r1 = None -> r_err r2 = None -> R (Z.to_nat N) (r_sol r1) (r_sol r2).
Proof.
  intros V1 V2 D1 D2 Hc Hd Ht HN HN1 He HK r1 r2 E1 E2. subst r1 r2.
  destruct (evolve_fixed None hyp sp before s1 so1 te N V1) as (t1 & u1 & tr1 & e1 & F1 & G1); try (rewrite D1); try assumption.
  destruct (evolve_fixed None hyp sp before s2 so2 te N V2) as (t2 & u2 & tr2 & e2 & F2 & G2); try (rewrite D2); try rewrite Ht; try assumption.
  rewrite G1 in *. rewrite G2 in *. cbn [r_err r_sol] in *. subst e1 e2.
  exact (fiter_pair (Z.to_nat N) 0 _ _ _ _ _ _ _ _ _ _ _ _ (V1 : dt_variable (set_max_steps N s1) = false) (V2 : dt_variable (set_max_steps N s2) = false)
    (D1 : dt (set_max_steps N s1) = d) (D2 : dt (set_max_steps N s2) = d) HK F1 F2).
Qed.
End Pair.
