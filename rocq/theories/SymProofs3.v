(** Corresponding problems: ghost cells, whole steps of the 1D classic solver. *)
From Verif Require Import Base BCModel BCSpec BCProofs LimiterModel LimiterSpec LimiterProofs
  Classic1DModel Classic1DSpec Classic1DProofs Classic1DProofs2 Classic1DProofs3 Classic1DProofs5 TimeModel ControllerModel RunModel
  SymSpec SymProofs SymProofs2.

Section Step.
Variables (pow : Q -> Q -> Q) (undef : Q -> Q -> Z -> Q) (L : lang) (g : change) (C C2 : settings).
Hypothesis HG : sensible g C.
Hypothesis HC : corresponding g C C2.
Hypothesis HL : plain_limiters L C.
Hypothesis Hcapa : capa_in_aux C.
Hypothesis HW : no_standing_fwaves g L C.
Hypothesis HE : fair_ends g L C.
Hypothesis Hng : (2 <= c_ng C)%nat.
Hypothesis HF : fit_dim (c_ng C) (Nat.ltb 0 (c_naux C)) (Z.of_nat (c_neq C)) (c_bc C).
Notation mir := (g_mirror g).
Notation neq := (c_neq C).
Notation naux := (c_naux C).
Notation ng := (Z.of_nat (c_ng C)).
Notation n := (ncells (c_bc C)).
Notation D := (c_bc C).

Definition turn (i : Z) : Z := if mir then (n - 1 - i)%Z else i.
(** Positions (with ghost cells) that correspond *)
Definition linked (i i2 : Z) : Prop :=
  (g_move g = 0%Z /\ i2 = turn i) \/ (periodic_bc D /\ exists k, i2 = turn i + g_move g + k * n)%Z.
Lemma n_pos : (1 <= n)%Z.
Proof. destruct HF as (_ & _ & _ & _ & _ & (_ & _ & H) & _). exact H. Qed.
Lemma n_wide : periodic_bc D -> (ng <= n)%Z.
Proof. intros (A & _). destruct HF as (_ & _ & _ & _ & _ & ([H|H] & _) & _); [congruence|exact H]. Qed.
Lemma place_linked i : (0 <= i < n)%Z -> linked i (place g n i).
Proof.
  intro Hi. pose proof n_pos. unfold linked, place. fold (turn i). destruct (co_move _ _ _ HC) as [E|E].
  - left. split; [exact E|]. rewrite E, Z.add_0_r. apply Z.mod_small. unfold turn. destruct mir; lia.
  - right. split; [exact E|]. exists (- ((turn i + g_move g) / n))%Z. pose proof (Z.div_mod (turn i + g_move g) n ltac:(lia)). lia.
Qed.
Lemma place_range i : (0 <= place g n i < n)%Z.
Proof. unfold place. apply Z.mod_pos_bound. pose proof n_pos. lia. Qed.
Lemma linked_move i i2 k : linked i i2 -> linked (i + k) (i2 + dir g k).
Proof.
  intros [[A B]|[A [c B]]]; [left|right]; (split; [exact A|]); [|exists c]; rewrite B; unfold turn, dir; destruct mir; lia.
Qed.
Lemma place_mod i i2 : periodic_bc D -> linked i i2 -> (i2 mod n)%Z = place g n (i mod n).
Proof.
  intros HP Hl. pose proof n_pos. unfold place.
  assert (X : exists k, (i2 = turn (i mod n) + g_move g + k * n)%Z).
  { pose proof (Z.div_mod i n ltac:(lia)) as Ei. destruct Hl as [[A B]|[_ [c B]]].
    - exists (if mir then - (i / n) else i / n)%Z. rewrite A, B. unfold turn. destruct mir; lia.
    - exists (c + if mir then - (i / n) else i / n)%Z. rewrite B. unfold turn. destruct mir; lia. }
  destruct X as [k ->]. fold (turn (i mod n)). apply Z.mod_add. lia.
Qed.
Lemma source_flip lo hi i : source_cell hi lo n (n - 1 - i) = (n - 1 - source_cell lo hi n i)%Z \/ (n <= 0)%Z.
Proof.
  unfold source_cell. destruct (Z.ltb_spec (n - 1 - i) 0), (Z.leb_spec n (n - 1 - i)), (Z.ltb_spec i 0), (Z.leb_spec n i);
    destruct lo, hi; lia.
Qed.
Lemma wall_flip lo hi i : behind_wall hi lo n (n - 1 - i) = behind_wall lo hi n i \/ (n <= 0)%Z.
Proof.
  unfold behind_wall. destruct (Z.ltb_spec (n - 1 - i) 0), (Z.leb_spec n (n - 1 - i)), (Z.ltb_spec i 0), (Z.leb_spec n i);
    destruct lo, hi; cbn; first [left; reflexivity|right; lia|lia].
Qed.
Lemma source_range lo hi i : standard lo -> standard hi -> wide (c_ng C) lo hi n -> (- ng <= i < n + ng)%Z -> (0 <= source_cell lo hi n i < n)%Z.
Proof.
  intros Hlo Hhi (W1 & W2 & W3) Hi. unfold source_cell.
  destruct (Z.ltb_spec i 0), (Z.leb_spec n i); destruct Hlo as [-> | [-> | ->]], Hhi as [-> | [-> | ->]];
    destruct W1 as [W1|W1]; try discriminate W1; destruct W2 as [W2|W2]; try discriminate W2; lia.
Qed.

Lemma ghost_rel q q2 m i i2 : same_array g n neq (g_q g) q q2 -> (0 <= m < Z.of_nat neq)%Z ->
  (- ng <= i < n + ng)%Z -> (- ng <= i2 < n + ng)%Z -> linked i i2 ->
  q_ghost_value Q Qopp [c_bc C2] q2 m [i2] == g_q g m * q_ghost_value Q Qopp [D] q m [i].
Proof.
  intros HA Hm Hi Hi2 Hl. pose proof n_pos.
  destruct (co_move _ _ _ HC) as [E0|HP].
  - destruct Hl as [[_ B]|[HP [k B]]].
    + rewrite (co_bc _ _ _ HC). unfold turn in B.
      assert (X : q2 m [source_cell (q_lo (if mir then flipped D else D)) (q_hi (if mir then flipped D else D)) n i2] ==
                  g_q g m * q m [source_cell (q_lo D) (q_hi D) n i] /\
                  behind_wall (q_lo (if mir then flipped D else D)) (q_hi (if mir then flipped D else D)) n i2 = behind_wall (q_lo D) (q_hi D) n i /\
                  reflect (if mir then flipped D else D) = reflect D /\ ncells (if mir then flipped D else D) = n).
      { destruct HF as (_ & _ & _ & S1 & S2 & W & _). pose proof (source_range (q_lo D) (q_hi D) i S1 S2 W Hi) as SR.
        specialize (HA m _ Hm SR). unfold place in HA. rewrite E0, Z.add_0_r in HA.
        destruct mir; cbn [flipped q_lo q_hi reflect ncells]; subst i2.
        - destruct (source_flip (q_lo D) (q_hi D) i) as [->|]; [|lia]. destruct (wall_flip (q_lo D) (q_hi D) i) as [->|]; [|lia].
          rewrite Z.mod_small in HA by lia. auto.
        - rewrite Z.mod_small in HA by lia. auto. }
      destruct X as (X1 & X2 & X3 & X4).
      unfold q_ghost_value. cbn [combine map rev app fold_right fst snd]. rewrite X4, X3, X2.
      destruct (_ && _)%bool; [rewrite X1; ring|exact X1].
    + pose proof (n_wide HP). assert (HP2 : periodic_bc (c_bc C2)).
      { rewrite (co_bc _ _ _ HC). destruct mir; [|exact HP]. destruct HP as (?&?&?&?&?&?). repeat split; assumption. }
      rewrite (ghost_q_periodic C q m i HP) by lia. rewrite (ghost_q_periodic C2 q2 m i2 HP2) by (rewrite (same_ncells g C C2 HC); lia).
      rewrite (same_ncells g C C2 HC). rewrite (place_mod i i2 HP) by (right; split; [exact HP|exists k; exact B]).
      apply HA; [exact Hm|]. apply Z.mod_pos_bound. lia.
  - pose proof (n_wide HP). assert (HP2 : periodic_bc (c_bc C2)).
    { rewrite (co_bc _ _ _ HC). destruct mir; [|exact HP]. destruct HP as (?&?&?&?&?&?). repeat split; assumption. }
    rewrite (ghost_q_periodic C q m i HP) by lia. rewrite (ghost_q_periodic C2 q2 m i2 HP2) by (rewrite (same_ncells g C C2 HC); lia).
    rewrite (same_ncells g C C2 HC). rewrite (place_mod i i2 HP Hl).
    apply HA; [exact Hm|]. apply Z.mod_pos_bound. lia.
Qed.
Lemma ghost_aux_rel a a2 m i i2 : same_array g n naux (g_aux g) a a2 -> (0 <= m < Z.of_nat naux)%Z ->
  (- ng <= i < n + ng)%Z -> (- ng <= i2 < n + ng)%Z -> linked i i2 ->
  aux_ghost_value Q [c_bc C2] a2 m [i2] == g_aux g m * aux_ghost_value Q [D] a m [i].
Proof.
  intros HA Hm Hi Hi2 Hl. pose proof n_pos.
  assert (PC : periodic_bc D -> aux_ghost_value Q [c_bc C2] a2 m [i2] == g_aux g m * aux_ghost_value Q [D] a m [i]).
  { intro HP. pose proof (n_wide HP). assert (HP2 : periodic_bc (c_bc C2)).
    { rewrite (co_bc _ _ _ HC). destruct mir; [|exact HP]. destruct HP as (?&?&?&?&?&?). repeat split; assumption. }
    rewrite (ghost_aux_periodic C a m i HP) by lia. rewrite (ghost_aux_periodic C2 a2 m i2 HP2) by (rewrite (same_ncells g C C2 HC); lia).
    rewrite (same_ncells g C C2 HC). rewrite (place_mod i i2 HP Hl).
    apply HA; [exact Hm|]. apply Z.mod_pos_bound. lia. }
  destruct Hl as [[E0 B]|[HP _]]; [|exact (PC HP)].
  destruct HF as (_ & _ & _ & _ & _ & _ & Wa). destruct (Wa ltac:(apply Nat.ltb_lt; lia)) as (S1 & S2 & W).
  pose proof (source_range (a_lo D) (a_hi D) i S1 S2 W Hi) as SR. specialize (HA m _ Hm SR).
  unfold place in HA. rewrite E0, Z.add_0_r in HA. unfold aux_ghost_value. cbn [combine map fst snd].
  rewrite (co_bc _ _ _ HC). unfold turn in B. destruct mir; cbn [flipped a_lo a_hi ncells]; subst i2.
  - destruct (source_flip (a_lo D) (a_hi D) i) as [->|]; [|lia]. rewrite Z.mod_small in HA by lia. exact HA.
  - rewrite Z.mod_small in HA by lia. exact HA.
Qed.
Lemma fit2 : fit_dim (c_ng C2) (Nat.ltb 0 (c_naux C2)) (Z.of_nat (c_neq C2)) (c_bc C2).
Proof.
  rewrite (co_ng _ _ _ HC), (co_naux _ _ _ HC), (co_neq _ _ _ HC), (co_bc _ _ _ HC). destruct mir; [|exact HF].
  destruct HF as (A1 & A2 & A3 & A4 & A5 & (W1 & W2 & W3) & A7). unfold fit_dim, wide. cbn [flipped q_lo q_hi a_lo a_hi on_lo on_hi reflect ncells].
  split; [exact A2|]. split; [exact A1|]. split; [intro X; apply A3; destruct X; auto|]. split; [exact A5|]. split; [exact A4|]. split; [auto|].
  intro X. destruct (A7 X) as (B1 & B2 & B3 & B4 & B5). auto.
Qed.

(** Every position has one that corresponds to it. *)
Lemma some_image i : (- ng <= i < n + ng)%Z -> exists i2, (- ng <= i2 < n + ng)%Z /\ linked i i2.
Proof.
  intro Hi. pose proof n_pos. destruct (co_move _ _ _ HC) as [E|HP].
  - exists (turn i). split; [unfold turn; destruct mir; lia|left; auto].
  - exists ((turn i + g_move g) mod n)%Z. pose proof (Z.mod_pos_bound (turn i + g_move g) n ltac:(lia)). split; [lia|].
    right. split; [exact HP|]. exists (- ((turn i + g_move g) / n))%Z. pose proof (Z.div_mod (turn i + g_move g) n ltac:(lia)). lia.
Qed.
Lemma some_origin i2 : (- ng <= i2 < n + ng)%Z -> exists i, (- ng <= i < n + ng)%Z /\ linked i i2.
Proof.
  intro Hi. pose proof n_pos. destruct (co_move _ _ _ HC) as [E|HP].
  - exists (turn i2). split; [unfold turn; destruct mir; lia|left; split; [exact E|]; unfold turn; destruct mir; lia].
  - exists (turn (i2 - g_move g) mod n)%Z. pose proof (Z.mod_pos_bound (turn (i2 - g_move g)) n ltac:(lia)). split; [lia|].
    right. split; [exact HP|]. pose proof (Z.div_mod (turn (i2 - g_move g)) n ltac:(lia)).
    exists (if mir then - (turn (i2 - g_move g) / n) else turn (i2 - g_move g) / n)%Z.
    unfold turn in *. destruct mir; lia.
Qed.
(** Pairs of neighbours (i, i+1) with i from [lo] to n-1 *)
Lemma pair_image lo i : (lo = -1 \/ lo = -2 /\ (mir = false \/ periodic_bc D))%Z -> (lo <= i < n)%Z ->
  exists i2, (lo <= i2 < n)%Z /\ linked i (if mir then i2 + 1 else i2)%Z /\ linked (i + 1) (if mir then i2 else i2 + 1)%Z.
Proof.
  intros Hlo Hi. pose proof n_pos.
  assert (PC : periodic_bc D -> exists i2, (lo <= i2 < n)%Z /\ linked i (if mir then i2 + 1 else i2)%Z /\ linked (i + 1) (if mir then i2 else i2 + 1)%Z).
  { intro HP. set (z := (turn i + g_move g - if mir then 1 else 0)%Z). exists (z mod n)%Z. pose proof (Z.mod_pos_bound z n ltac:(lia)).
    split; [lia|]. pose proof (Z.div_mod z n ltac:(lia)) as Ez. unfold z, turn in *.
    split; right; (split; [exact HP|]); exists (- (z / n))%Z; unfold z, turn; destruct mir; lia. }
  destruct (co_move _ _ _ HC) as [E|HP]; [|exact (PC HP)].
  assert (X : periodic_bc D \/ lo = (-1)%Z \/ mir = false) by (destruct Hlo as [?|[_ [?|?]]]; auto).
  destruct X as [HP|X]; [exact (PC HP)|].
  exists (turn i - if mir then 1 else 0)%Z. unfold linked, turn. split; [destruct X as [->|X]; [destruct mir; lia|rewrite X; lia]|].
  split; left; (split; [exact E|]); destruct mir; lia.
Qed.
Lemma pair_origin lo i2 : (lo = -1 \/ lo = -2 /\ (mir = false \/ periodic_bc D))%Z -> (lo <= i2 < n)%Z ->
  exists i, (lo <= i < n)%Z /\ linked i (if mir then i2 + 1 else i2)%Z /\ linked (i + 1) (if mir then i2 else i2 + 1)%Z.
Proof.
  intros Hlo Hi. pose proof n_pos.
  assert (PC : periodic_bc D -> exists i, (lo <= i < n)%Z /\ linked i (if mir then i2 + 1 else i2)%Z /\ linked (i + 1) (if mir then i2 else i2 + 1)%Z).
  { intro HP. set (z := turn (i2 - g_move g + if mir then 1 else 0)%Z). exists (z mod n)%Z. pose proof (Z.mod_pos_bound z n ltac:(lia)).
    split; [lia|]. pose proof (Z.div_mod z n ltac:(lia)) as Ez.
    split; right; (split; [exact HP|]); exists (if mir then - (z / n) else z / n)%Z; unfold z, turn in *; destruct mir; lia. }
  destruct (co_move _ _ _ HC) as [E|HP]; [|exact (PC HP)].
  assert (X : periodic_bc D \/ lo = (-1)%Z \/ mir = false) by (destruct Hlo as [?|[_ [?|?]]]; auto).
  destruct X as [HP|X]; [exact (PC HP)|].
  exists (turn i2 - if mir then 1 else 0)%Z. unfold linked, turn. split; [destruct X as [->|X]; [destruct mir; lia|rewrite X; lia]|].
  split; left; (split; [exact E|]); destruct mir; lia.
Qed.

Lemma extrap_lo (E : dimbc) q m i j : q_lo E = Extrap -> (1 <= ncells E)%Z -> (i <= 0)%Z -> (j <= 0)%Z ->
  q_ghost_value Q Qopp [E] q m [i] = q_ghost_value Q Qopp [E] q m [j].
Proof.
  intros H1 H2 Hi Hj. unfold q_ghost_value. cbn [combine map rev app fold_right fst snd]. unfold behind_wall, source_cell. rewrite H1.
  replace (ncells E <=? i)%Z with false by (symmetry; apply Z.leb_gt; lia). replace (ncells E <=? j)%Z with false by (symmetry; apply Z.leb_gt; lia).
  rewrite ?andb_false_r. cbn [orb andb]. rewrite ?andb_false_r.
  destruct (Z.ltb_spec i 0), (Z.ltb_spec j 0); do 2 f_equal; lia.
Qed.
Lemma extrap_aux_lo (E : dimbc) q m i j : a_lo E = Extrap -> (1 <= ncells E)%Z -> (i <= 0)%Z -> (j <= 0)%Z ->
  aux_ghost_value Q [E] q m [i] = aux_ghost_value Q [E] q m [j].
Proof.
  intros H1 H2 Hi Hj. unfold aux_ghost_value. cbn [combine map fst snd]. unfold source_cell. rewrite H1.
  replace (ncells E <=? i)%Z with false by (symmetry; apply Z.leb_gt; lia). replace (ncells E <=? j)%Z with false by (symmetry; apply Z.leb_gt; lia).
  destruct (Z.ltb_spec i 0), (Z.ltb_spec j 0); do 2 f_equal; lia.
Qed.

Variables (d d2 : Q) (q aux q2 aux2 qb xb qb2 xb2 : arr Q).
Hypothesis HT : d2 == g_time g * d.
Hypothesis HQ : same_array g n neq (g_q g) q q2.
Hypothesis HX : same_array g n naux (g_aux g) aux aux2.

Lemma with_dt_corr : corresponding g (with_dt C d) (with_dt C2 d2).
Proof. destruct HC. constructor; assumption. Qed.

Theorem step_rel :
  match step_hyperbolic pow undef L (with_dt C d) q aux qb xb, step_hyperbolic pow undef L (with_dt C2 d2) q2 aux2 qb2 xb2 with
  | Stepped q' c, Stepped q2' c2 =>
      c2 == c /\ forall m i, (0 <= m < Z.of_nat neq)%Z -> (0 <= i < n)%Z -> q2' m (place g n i) == g_q g m * q' m i
  | Stopped, Stopped => True
  | _, _ => False
  end.
Proof.
  pose proof n_pos as Hn.
  destruct (step_ok pow undef (with_dt C d) L q aux qb xb) as (qbc & abc & Eq & Ea & ->); [cbn; lia|exact HF|].
  destruct (step_ok pow undef (with_dt C2 d2) L q2 aux2 qb2 xb2) as (qbc2 & abc2 & Eq2 & Ea2 & ->);
    [cbn; rewrite (co_ng _ _ _ HC); lia|exact fit2|].
  cbn [with_dt c_ng c_bc c_neq c_naux] in *. rewrite (same_ncells g C C2 HC), (co_ng _ _ _ HC) in *.
  assert (CR : forall i i2, (- ng <= i < n + ng)%Z -> (- ng <= i2 < n + ng)%Z -> linked i i2 ->
     cell_rel g (with_dt C d) qbc abc qbc2 abc2 (i + ng) (i2 + ng)).
  { intros i i2 Hi Hi2 Hl. split; cbn [with_dt c_neq c_naux]; intros m Hm.
    - rewrite Eq, Eq2 by assumption. apply ghost_rel; assumption.
    - assert (X : (0 <? c_naux C)%nat = true) by (apply Nat.ltb_lt; lia).
      rewrite Ea, Ea2 by (first [assumption|unfold has_aux; cbn [with_dt c_naux]; rewrite ?(co_naux _ _ _ HC); exact X]). apply ghost_aux_rel; assumption. }
  set (Cd := with_dt C d) in *. set (Cd2 := with_dt C2 d2) in *.
  pose proof with_dt_corr as HC'. fold Cd Cd2 in HC'.
  assert (N1 : forall i, (0 <= i < n + 2 * ng)%Z -> exists i2, (0 <= i2 < n + 2 * ng)%Z /\ cell_rel g Cd qbc abc qbc2 abc2 i i2).
  { intros i Hi. destruct (some_image (i - ng)) as (i2 & H2 & Hl); [lia|]. exists (i2 + ng)%Z. split; [lia|].
    replace i with (i - ng + ng)%Z by lia. apply CR; (lia || assumption). }
  assert (N2 : forall i2, (0 <= i2 < n + 2 * ng)%Z -> exists i, (0 <= i < n + 2 * ng)%Z /\ cell_rel g Cd qbc abc qbc2 abc2 i i2).
  { intros i Hi. destruct (some_origin (i - ng)) as (i2 & H2 & Hl); [lia|]. exists (i2 + ng)%Z. split; [lia|].
    replace i with (i - ng + ng)%Z by lia. apply CR; (lia || assumption). }
  destruct (kernel pow undef L Cd qbc abc) as [[q' c]|] eqn:K1; destruct (kernel pow undef L Cd2 qbc2 abc2) as [[q2' c2]|] eqn:K2.
  - split.
    + assert (RNG : first_iface Cd L = (ng + match L with Python => -2 | Fortran => -1 end)%Z) by (unfold first_iface; cbn [Cd with_dt c_ng]; destruct L; lia).
      assert (HB : mir = true -> L = Python -> ~ periodic_bc D -> forall i i2 : Z, (i = -2 /\ i2 = n \/ i = -1 /\ i2 = n - 1 \/ i = n /\ i2 = -2 \/ i = n - 1 /\ i2 = -1)%Z ->
         cell_rel g Cd qbc abc qbc2 abc2 (i + ng) (i2 + ng)).
      { intros M EL NP. destruct (HE M EL) as [HP|(Q1 & Q2 & A12)]; [contradiction|].
        assert (E0 : g_move g = 0%Z) by (destruct (co_move _ _ _ HC); [assumption|contradiction]).
        assert (D2 : c_bc C2 = flipped D) by (rewrite (co_bc _ _ _ HC), M; reflexivity).
        assert (LO : forall i j i2, (-2 <= i <= 0)%Z -> (-2 <= j <= 0)%Z -> cell_rel g Cd qbc abc qbc2 abc2 (i + ng) i2 -> cell_rel g Cd qbc abc qbc2 abc2 (j + ng) i2).
        { intros i j i2 Hi Hj [X1 X2]. split; intros m Hm; [specialize (X1 m Hm)|specialize (X2 m Hm)].
          - rewrite (Eq m j) by lia. rewrite (Eq m i) in X1 by lia. rewrite (extrap_lo D q m j i Q1) by lia. exact X1.
          - cbn [Cd with_dt c_naux] in Hm. assert (X : (0 <? c_naux C)%nat = true) by (apply Nat.ltb_lt; lia).
            rewrite (Ea X m j) by lia. rewrite (Ea X m i) in X2 by lia.
            rewrite (extrap_aux_lo D aux m j i (proj1 (A12 ltac:(lia)))) by lia. exact X2. }
        assert (LO2 : forall i j i1, (-2 <= i <= 0)%Z -> (-2 <= j <= 0)%Z -> cell_rel g Cd qbc abc qbc2 abc2 i1 (i + ng) -> cell_rel g Cd qbc abc qbc2 abc2 i1 (j + ng)).
        { intros i j i2 Hi Hj [X1 X2]. split; intros m Hm; [specialize (X1 m Hm)|specialize (X2 m Hm)].
          - rewrite (Eq2 m j) by lia. rewrite (Eq2 m i) in X1 by lia. rewrite (extrap_lo (c_bc C2) q2 m j i) by (rewrite ?D2; cbn; first [exact Q2|lia]). exact X1.
          - cbn [Cd with_dt c_naux] in Hm. assert (X : has_aux Cd2 = true) by (unfold has_aux; cbn [Cd2 with_dt c_naux]; rewrite (co_naux _ _ _ HC); apply Nat.ltb_lt; lia).
            rewrite (Ea2 X m j) by lia. rewrite (Ea2 X m i) in X2 by lia.
            rewrite (extrap_aux_lo (c_bc C2) aux2 m j i) by (rewrite ?D2; cbn; first [exact (proj2 (A12 ltac:(lia)))|lia]). exact X2. }
        intros i i2 [[-> ->]|[[-> ->]|[[-> ->]|[-> ->]]]].
        - apply (LO (-1)%Z); [lia|lia|]. apply CR; [lia|lia|]. left. unfold turn. rewrite M. split; [exact E0|lia].
        - apply (LO 0%Z); [lia|lia|]. apply CR; [lia|lia|]. left. unfold turn. rewrite M. split; [exact E0|lia].
        - apply (LO2 (-1)%Z); [lia|lia|]. apply CR; [lia|lia|]. left. unfold turn. rewrite M. split; [exact E0|lia].
        - apply (LO2 0%Z); [lia|lia|]. apply CR; [lia|lia|]. left. unfold turn. rewrite M. split; [exact E0|lia]. }
      assert (DEC : (first_iface Cd L - ng = -1 \/ first_iface Cd L - ng = -2 /\ (mir = false \/ periodic_bc D))%Z \/ (mir = true /\ L = Python /\ ~ periodic_bc D)).
      { rewrite RNG. destruct L; [|left; left; lia]. destruct mir eqn:Em; [|left; right; split; [lia|auto]].
        destruct (HE Em eq_refl) as [HP|(Q1 & _)]; [left; right; split; [lia|auto]|]. right. split; [reflexivity|]. split; [reflexivity|].
        intros (P1 & _). congruence. }
      apply (cfl_rel pow undef L g Cd Cd2 HG HC' HT Hcapa qbc abc qbc2 abc2 q' c q2' c2); [cbn [Cd with_dt c_bc]; lia|exact K1|exact K2| |];
        cbn [Cd with_dt c_ng c_bc]; fold Cd.
      * intros j Hj. destruct DEC as [DEC|(M & EL & NP)].
        -- destruct (pair_image _ (j - ng) DEC) as (i2 & H2 & L1 & L2); [lia|]. exists (i2 + ng)%Z. split; [lia|].
           split; [replace j with (j - ng + ng)%Z by lia|replace (j + 1)%Z with (j - ng + 1 + ng)%Z by lia];
           [replace (if mir then i2 + ng + 1 else i2 + ng)%Z with ((if mir then i2 + 1 else i2) + ng)%Z by (destruct mir; lia)
           |replace (if mir then i2 + ng else i2 + ng + 1)%Z with ((if mir then i2 else i2 + 1) + ng)%Z by (destruct mir; lia)];
           (apply CR; [lia|destruct mir; lia|assumption]).
        -- destruct (Z.eq_dec j (ng - 2)) as [->|Nj].
           ++ exists (n - 1 + ng)%Z. split; [lia|]. rewrite M. split.
              ** replace (ng - 2)%Z with (-2 + ng)%Z by lia. replace (n - 1 + ng + 1)%Z with (n + ng)%Z by lia. apply HB; auto.
              ** replace (ng - 2 + 1)%Z with (-1 + ng)%Z by lia. apply HB; auto.
           ++ destruct (pair_image (-1) (j - ng) (or_introl eq_refl)) as (i2 & H2 & L1 & L2); [rewrite RNG, EL in Hj; lia|]. exists (i2 + ng)%Z. split; [rewrite RNG, EL; lia|].
              rewrite M in L1, L2 |- *. split; [replace j with (j - ng + ng)%Z by lia|replace (j + 1)%Z with (j - ng + 1 + ng)%Z by lia];
              [replace (i2 + ng + 1)%Z with (i2 + 1 + ng)%Z by lia|]; (apply CR; [rewrite RNG, EL in Hj; lia|lia|assumption]).
      * intros j Hj. destruct DEC as [DEC|(M & EL & NP)].
        -- destruct (pair_origin _ (j - ng) DEC) as (i & H2 & L1 & L2); [lia|]. exists (i + ng)%Z. split; [lia|].
           split; [|replace (i + ng + 1)%Z with (i + 1 + ng)%Z by lia];
           [replace (if mir then j + 1 else j)%Z with ((if mir then j - ng + 1 else j - ng) + ng)%Z by (destruct mir; lia)
           |replace (if mir then j else j + 1)%Z with ((if mir then j - ng else j - ng + 1) + ng)%Z by (destruct mir; lia)];
           (apply CR; [lia|destruct mir; lia|assumption]).
        -- destruct (Z.eq_dec j (ng - 2)) as [->|Nj].
           ++ exists (n - 1 + ng)%Z. split; [lia|]. rewrite M. split.
              ** replace (ng - 2 + 1)%Z with (-1 + ng)%Z by lia. apply HB; auto 6.
              ** replace (ng - 2)%Z with (-2 + ng)%Z by lia. replace (n - 1 + ng + 1)%Z with (n + ng)%Z by lia. apply HB; auto 6.
           ++ destruct (pair_origin (-1) (j - ng) (or_introl eq_refl)) as (i & H2 & L1 & L2); [rewrite RNG, EL in Hj; lia|]. exists (i + ng)%Z. split; [rewrite RNG, EL; lia|].
              rewrite M in L1, L2 |- *. split; [replace (j + 1)%Z with (j - ng + 1 + ng)%Z by lia|replace j with (j - ng + ng)%Z by lia];
              [|replace (i + ng + 1)%Z with (i + 1 + ng)%Z by lia]; (apply CR; [lia|rewrite RNG, EL in Hj; lia|assumption]).
    + intros m i Hm Hi. pose proof (place_range i) as Hp.
      apply (cell_update pow undef L g Cd Cd2 HG HC' HT HL Hcapa HW Hng qbc abc qbc2 abc2 q' c q2' c2 m (i + ng) (place g n i + ng) K1 K2 Hm);
        [cbn [Cd with_dt c_ng c_bc]; lia|cbn [Cd with_dt c_ng c_bc]; lia|].
      intros k Hk. replace (i + ng + k)%Z with (i + k + ng)%Z by lia. replace (place g n i + ng + dir g k)%Z with (place g n i + dir g k + ng)%Z by lia.
      apply CR; [lia|unfold dir; destruct mir; lia|]. apply linked_move, place_linked. exact Hi.
  - exfalso. pose proof (kernel_none2 pow undef L g Cd Cd2 HG HC' Hcapa Hng qbc abc qbc2 abc2 N2 K2). congruence.
  - exfalso. pose proof (kernel_none pow undef L g Cd Cd2 HG HC' Hcapa Hng qbc abc qbc2 abc2 N1 K1). congruence.
  - exact I.
Qed.
End Step.
