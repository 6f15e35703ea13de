(** Problems that differ in cell width and capacity function only: proofs. *)
From Verif Require Import Base BCModel BCSpec BCProofs LimiterModel LimiterSpec LimiterProofs
  Classic1DModel Classic1DSpec Classic1DProofs Classic1DProofs2 Classic1DProofs3 Classic1DProofs5 Classic1DProps TimeModel ControllerModel RunModel
  SimSpec SymSpec SymProofs SymProofs2 SymProofs3 SimProofs SymProofs4 SymProps CapaSpec.

Lemma sensible_same C : sensible (moved 0) C.
Proof. split; [reflexivity|]. split; [reflexivity|]. split; [left; exists 1; split; [reflexivity|intros; reflexivity]|intros; reflexivity]. Qed.
Lemma corresponding_same C : regular C -> corresponding (moved 0) C C.
Proof. intro HR. constructor; try reflexivity; [left; reflexivity|cbn; ring|exact HR]. Qed.

(** ** The kernels on the same data *)
Section Kernel.
Variables (pow : Q -> Q -> Q) (undef : Q -> Q -> Z -> Q) (L : lang) (C : settings) (dx2 : Q) (capa2 : option Z).
Hypothesis HR : regular C.
Hypothesis HL : plain_limiters L C.
Hypothesis Hng : (2 <= c_ng C)%nat.
Notation C2 := (with_width C dx2 capa2).
Notation ng := (Z.of_nat (c_ng C)).
Notation mx := (ncells (c_bc C)).
Variables qbc auxbc : Z -> Z -> Q.
Notation R := (rps C qbc auxbc).
Notation d := (dtdx_of C auxbc).
Notation d2 := (dtdx_of C2 auxbc).
Hypothesis HD : forall i, (0 <= i < mx + 2 * ng)%Z -> d2 i == d i.

Lemma iface_same j : iface (moved 0) C R R j j.
Proof. constructor; intros; unfold s_fac, w_fac; cbn [moved g_mirror g_speed g_q]; try (destruct (c_fwave C)); ring. Qed.
Lemma no_mirror D : no_standing_fwaves (moved 0) L D.
Proof. intro H. discriminate H. Qed.
Lemma width_update q' c q2' c2 m i :
  kernel pow undef L C qbc auxbc = Some (q', c) -> kernel pow undef L C2 qbc auxbc = Some (q2', c2) ->
  (0 <= m < Z.of_nat (c_neq C))%Z -> (ng <= i < ng + mx)%Z -> q2' m i == q' m i.
Proof.
  intros K1 K2 Hm Hi.
  rewrite (kernel_form pow undef C L _ _ _ _ Hng K1 m i Hi), (kernel_form pow undef C2 L _ _ _ _ Hng K2 m i Hi).
  change (rps C2 qbc auxbc) with R. unfold update.
  assert (LO : local_limiters_only pow L C) by exact (local_only pow L C HL).
  assert (LO2 : local_limiters_only pow L C2) by exact LO.
  assert (E : forall e, (ng <= e <= ng + mx)%Z ->
     corr (c_nw C2) (pre C2 L) (fac pow undef C2 L d2 R) d2 R m e == corr (c_nw C) (pre C L) (fac pow undef C L d R) d R m e).
  { intros e He. rewrite (corr_facl pow undef C L qbc auxbc m e Hng LO He).
    change R with (rps C2 qbc auxbc) at 1 2. rewrite (corr_facl pow undef C2 L qbc auxbc m e Hng LO2 He).
    pose proof (corr_rel pow undef L (moved 0) C C (sensible_same C) (corresponding_same C HR) HL (no_mirror C) d d2 R R m e e Hm) as K.
    cbn [moved g_mirror g_speed g_q dn2 up2] in K. change (rps C2 qbc auxbc) with R.
    change (corr (c_nw C2) (pre C2 L) (facl pow undef C2 L d2 R) d2 R m e) with (corr (c_nw C) (pre C L) (facl pow undef C L d2 R) d2 R m e).
    rewrite K; [ring| | | | |discriminate].
    - replace (e - 1 - 1)%Z with (e - 2)%Z by lia. apply iface_same.
    - apply iface_same.
    - replace (e - 1 + 1)%Z with e by lia. apply iface_same.
    - split; rewrite Qmult_1_r; apply HD; lia. }
  change (second C2 L) with (second C L).
  destruct (second C L); rewrite (HD i) by lia; [rewrite !E by lia|]; reflexivity.
Qed.
Lemma width_cfl q' c q2' c2 : (0 <= mx)%Z ->
  kernel pow undef L C qbc auxbc = Some (q', c) -> kernel pow undef L C2 qbc auxbc = Some (q2', c2) -> c2 == c.
Proof.
  intros Hmx K1 K2.
  destruct (kernel_cfl_fst pow undef C L _ _ _ _ K1 Hmx) as (l & M & I).
  destruct (kernel_cfl_fst pow undef C2 L _ _ _ _ K2 Hmx) as (l2 & M2 & I2).
  change (first_iface C2 L) with (first_iface C L) in I2. change (rps C2 qbc auxbc) with R in I2.
  assert (F : forall j, (first_iface C L <= j < ng + mx)%Z -> d2 j == d j /\ d2 (j + 1)%Z == d (j + 1)%Z).
  { intros j Hj. unfold first_iface in Hj. split; apply HD; destruct L; lia. }
  apply Qle_antisym.
  - apply (is_max_le _ _ _ _ _ _ M2 M); [lra|]. intros x Hx. apply I2 in Hx. destruct Hx as (p & j & Hp & Hj & Hx).
    destruct (F j Hj) as (F1 & F2). destruct Hx as [<-|[<-|[]]].
    + exists (d (j + 1)%Z * spd R p j). split; [apply I; exists p, j; repeat split; try assumption; try apply Hp; try apply Hj; left; reflexivity|].
      rewrite F2. lra.
    + exists (- d j * spd R p j). split; [apply I; exists p, j; repeat split; try assumption; try apply Hp; try apply Hj; right; left; reflexivity|].
      rewrite F1. lra.
  - apply (is_max_le _ _ _ _ _ _ M M2); [lra|]. intros x Hx. apply I in Hx. destruct Hx as (p & j & Hp & Hj & Hx).
    destruct (F j Hj) as (F1 & F2). destruct Hx as [<-|[<-|[]]].
    + exists (d2 (j + 1)%Z * spd R p j). split; [apply I2; exists p, j; repeat split; try assumption; try apply Hp; try apply Hj; left; reflexivity|].
      rewrite F2. lra.
    + exists (- d2 j * spd R p j). split; [apply I2; exists p, j; repeat split; try assumption; try apply Hp; try apply Hj; right; left; reflexivity|].
      rewrite F1. lra.
Qed.
End Kernel.

(** ** A step on the same data *)
Section Step.
Variables (pow : Q -> Q -> Q) (undef : Q -> Q -> Z -> Q) (L : lang) (C : settings) (dx2 : Q) (capa2 : option Z).
Hypothesis HR : regular C.
Hypothesis HL : plain_limiters L C.
Hypothesis Hng : (2 <= c_ng C)%nat.
Hypothesis HF : fit_dim (c_ng C) (Nat.ltb 0 (c_naux C)) (Z.of_nat (c_neq C)) (c_bc C).
Hypothesis Hdx : 0 < c_dx C.
Hypothesis Hdx2 : 0 < dx2.
Notation C2 := (with_width C dx2 capa2).
Hypothesis Hcapa : capa_in_aux C.
Hypothesis Hcapa2 : capa_in_aux C2.
Notation ng := (Z.of_nat (c_ng C)).
Notation mx := (ncells (c_bc C)).
Variables q aux qb xb qb2 xb2 : arr Q.
Hypothesis HP : forall i, (0 <= i < mx)%Z -> 0 < content C aux i /\ content C2 aux i == content C aux i.

Lemma source_in lo hi i : standard lo -> standard hi -> wide (c_ng C) lo hi mx -> (- ng <= i < mx + ng)%Z -> (0 <= source_cell lo hi mx i < mx)%Z.
Proof.
  intros Hlo Hhi (W1 & W2 & W3) Hi. unfold source_cell.
  destruct (Z.ltb_spec i 0), (Z.leb_spec mx i); destruct Hlo as [-> | [-> | ->]], Hhi as [-> | [-> | ->]];
    destruct W1 as [W1|W1]; try discriminate W1; destruct W2 as [W2|W2]; try discriminate W2; lia.
Qed.
Theorem width_step :
  match step_hyperbolic pow undef L C q aux qb xb, step_hyperbolic pow undef L C2 q aux qb xb with
  | Stepped q' c, Stepped q2' c2 => c2 == c /\ forall m i, (0 <= m < Z.of_nat (c_neq C))%Z -> (0 <= i < mx)%Z -> q2' m i == q' m i
  | _, _ => False
  end.
Proof.
  unfold step_hyperbolic. change (c_bc C2) with (c_bc C). change (c_ng C2) with (c_ng C). change (c_naux C2) with (c_naux C).
  change (c_funs C2) with (c_funs C). change (c_neq C2) with (c_neq C).
  destruct (apply_bcs_at Q Qopp (c_ng C) (Nat.ltb 0 (c_naux C)) (c_funs C) (Z.of_nat (c_neq C)) [c_bc C] q aux qb xb ltac:(lia)) as (qg & xg & -> & _ & B & _).
  { constructor; [exact HF|constructor]. }
  set (qbc := fun m i => qg m [i]). set (abc := fun m i => xg m [i]).
  assert (Hmx : (1 <= mx)%Z) by (destruct HF as (_ & _ & _ & _ & _ & (_ & _ & W) & _); exact W).
  assert (G : forall i, (0 <= i < mx + 2 * ng)%Z -> exists j, (0 <= j < mx)%Z /\ forall k, (0 <= k < Z.of_nat (c_naux C))%Z -> abc k i = aux k [j]).
  { intros i Hi. destruct (Nat.ltb 0 (c_naux C)) eqn:HA.
    - destruct HF as (_ & _ & _ & _ & _ & _ & Wa). destruct (Wa eq_refl) as (S1 & S2 & W).
      exists (source_cell (a_lo (c_bc C)) (a_hi (c_bc C)) mx (i - ng)). split; [apply source_in; try assumption; lia|].
      intros k Hk. unfold abc. replace [i] with (shift ng [(i - ng)%Z]) by (cbn; f_equal; lia).
      rewrite (B eq_refl k [(i - ng)%Z]); [reflexivity|]. cbn. lia.
    - apply Nat.ltb_ge in HA. exists 0%Z. split; [lia|]. intros k Hk. lia. }
  assert (X : forall D, c_naux D = c_naux C -> capa_in_aux D -> forall i, (0 <= i < mx + 2 * ng)%Z -> exists j, (0 <= j < mx)%Z /\
     (forall k, c_capa D = Some k -> abc k i = aux k [j])).
  { intros D ED HD i Hi. destruct (G i Hi) as (j & Hj & K). exists j. split; [exact Hj|]. intros k Hk. apply K. rewrite <- ED. apply HD, Hk. }
  assert (PO : forall i k, (0 <= i < mx + 2 * ng)%Z -> c_capa C = Some k -> 0 < abc k i).
  { intros i k Hi Hk. destruct (X C eq_refl Hcapa i Hi) as (j & Hj & K). rewrite (K k Hk). destruct (HP j Hj) as (P1 & _).
    unfold content in P1. rewrite Hk in P1. destruct (Qlt_le_dec 0 (aux k [j])) as [|N]; [assumption|]. exfalso.
    apply (Qlt_not_le _ _ P1). setoid_replace 0 with (c_dx C * 0) by ring. apply Qmult_le_l; assumption. }
  assert (PO2 : forall i k, (0 <= i < mx + 2 * ng)%Z -> capa2 = Some k -> 0 < abc k i).
  { intros i k Hi Hk. destruct (X C2 eq_refl Hcapa2 i Hi) as (j & Hj & K). rewrite (K k Hk). destruct (HP j Hj) as (P1 & P2).
    rewrite <- P2 in P1. unfold content in P1. cbn [with_width c_capa c_dx] in P1. rewrite Hk in P1.
    destruct (Qlt_le_dec 0 (aux k [j])) as [|N]; [assumption|]. exfalso.
    apply (Qlt_not_le _ _ P1). setoid_replace 0 with (dx2 * 0) by ring. apply Qmult_le_l; assumption. }
  assert (HD : forall i, (0 <= i < mx + 2 * ng)%Z -> dtdx_of C2 abc i == dtdx_of C abc i).
  { intros i Hi. destruct (G i Hi) as (j & Hj & K). destruct (HP j Hj) as (_ & P2). unfold content in P2.
    unfold dtdx_of. cbn [with_width c_capa c_dx c_dt] in *. destruct (c_capa C) as [k|] eqn:E1, capa2 as [k2|] eqn:E2; cbn [option_map py_dtdx];
      rewrite ?(K k), ?(K k2) by (first [apply Hcapa; exact E1|apply Hcapa2; reflexivity]); rewrite P2; reflexivity. }
  destruct (kernel pow undef L C qbc abc) as [[q' c]|] eqn:K1.
  2: { destruct (kernel_stopped pow undef C L qbc abc K1) as (_ & k & i & Ek & Hi & N). pose proof (PO i k Hi Ek). exfalso. lra. }
  destruct (kernel pow undef L C2 qbc abc) as [[q2' c2]|] eqn:K2.
  2: { destruct (kernel_stopped pow undef C2 L qbc abc K2) as (_ & k & i & Ek & Hi & N). pose proof (PO2 i k Hi Ek). exfalso. lra. }
  split.
  - apply (width_cfl pow undef L C dx2 capa2 HL Hng qbc abc HD q' c q2' c2); [lia|exact K1|exact K2].
  - intros m i Hm Hi. apply (width_update pow undef L C dx2 capa2 HR HL Hng qbc abc HD q' c q2' c2); (assumption || lia).
Qed.
End Step.

(** ** Runs *)
Section Program.
Context {E E2 P P2 F F2 : Type}.
Variables (pow : Q -> Q -> Q) (undef : Q -> Q -> Z -> Q) (RE : E -> E2 -> Prop) (RP : P -> P2 -> Prop) (RF : F -> F2 -> Prop)
  (p : program E) (p2 : program E2).
Notation C := (p_settings p).
Notation C2 := (p_settings p2).
Hypothesis HP : same_but_width RE p p2.
Hypothesis HR : regular C.
Hypothesis HL : plain_limiters (p_lang p) C.
Hypothesis Hng : (2 <= c_ng C)%nat.
Hypothesis HF : fit_dim (c_ng C) (Nat.ltb 0 (c_naux C)) (Z.of_nat (c_neq C)) (c_bc C).
Hypothesis Hdx : 0 < c_dx C.
Hypothesis Hcapa : capa_in_aux C.
Hypothesis Hcapa2 : capa_in_aux C2.
Notation RQ := (agree_q C).
Notation RX := (agree_aux C C2).

Lemma agree_same comps a a2 : agree C comps a a2 -> same_array (moved 0) (cells C) comps (fun _ => 1) a a2.
Proof.
  intros H m i Hm Hi. unfold place. cbn [moved g_mirror g_move]. rewrite Z.add_0_r, Z.mod_small by lia. rewrite (H m i Hm Hi). ring.
Qed.
Lemma width_hyper : rel_hyper RQ RX 1 (hyper_1d pow undef (p_lang p) C (p_stale p)) (hyper_1d pow undef (p_lang p2) C2 (p_stale p2)).
Proof.
  intros d d2 so so2 Hd (HQ & HX & Ht). destruct HP as [Q1 (dx & capa & Q2 & Hdx2) _ _ _ _ _].
  unfold hyper_1d. rewrite Q1. pose proof HX as HX'. destruct HX as (HX & HC).
  assert (CD : regular (with_dt C d2)) by exact HR.
  pose proof (step_rel pow undef (p_lang p) (moved 0) C C (sensible_same C) (corresponding_same C HR) HL Hcapa (no_mirror _ C)) as K.
  specialize (K ltac:(intro N; discriminate N) Hng HF d d2 (sq so) (sx so) (sq so2) (sx so2)
    (fst (p_stale p d so)) (snd (p_stale p d so)) (fst (p_stale p2 d2 so2)) (snd (p_stale p2 d2 so2)) Hd
    (agree_same _ _ _ HQ) (agree_same _ _ _ HX)).
  pose proof (width_step pow undef (p_lang p) (with_dt C d2) dx capa CD HL Hng HF Hdx Hdx2 Hcapa) as W.
  rewrite Q2 in Hcapa2. specialize (W Hcapa2 (sq so2) (sx so2) (fst (p_stale p2 d2 so2)) (snd (p_stale p2 d2 so2))).
  assert (CC : forall i, (0 <= i < cells C)%Z -> content C (sx so2) i == content C (sx so) i).
  { intros i Hi. unfold content. destruct (c_capa C) as [k|] eqn:Ek; [|reflexivity]. rewrite (HX k i (Hcapa k Ek) Hi). reflexivity. }
  assert (W' : forall i, (0 <= i < ncells (c_bc (with_dt C d2)))%Z -> 0 < content (with_dt C d2) (sx so2) i /\
     content (with_width (with_dt C d2) dx capa) (sx so2) i == content (with_dt C d2) (sx so2) i).
  { intros i Hi. destruct (HC i Hi) as (H1 & H2). specialize (CC i Hi).
    change (content (with_dt C d2) (sx so2) i) with (content C (sx so2) i). rewrite CC. split; [exact H1|].
    rewrite Q2 in H2. exact H2. }
  specialize (W W'). rewrite Q2.
  change (with_width (with_dt C d2) dx capa) with (with_dt (with_width C dx capa) d2) in W.
  destruct (step_hyperbolic pow undef (p_lang p) (with_dt C d) _ _ _ _) as [q1 c1|e1|];
    destruct (step_hyperbolic pow undef (p_lang p) (with_dt C d2) _ _ _ _) as [qm cm|em|]; try contradiction;
    destruct (step_hyperbolic pow undef (p_lang p) (with_dt (with_width C dx capa) d2) _ _ _ _) as [q2 c2|e2|]; try contradiction.
  destruct K as (K1 & K2), W as (W1 & W2). cbn [fst snd]. split; [|rewrite W1; exact K1]. split; [|rewrite Q2 in HX'; exact HX'].
  intros m i Hm Hi. cbn [hd fst]. rewrite (W2 m i Hm Hi). specialize (K2 m i Hm Hi). unfold place in K2. cbn [moved g_mirror g_move g_q] in K2.
  rewrite Z.add_0_r, Z.mod_small in K2 by (exact Hi). rewrite K2. ring.
Qed.
Theorem width_run (c : controller (arr Q) (arr Q) P F) (c2 : controller (arr Q) (arr Q) P2 F2) w w2 :
  rel_controller RQ RX RP RF 1 c c2 -> rel_world RQ RX RE RP RF 1 w w2 ->
  rel_world RQ RX RE RP RF 1 (fst (run_of pow undef p c w)) (fst (run_of pow undef p2 c2 w2)) /\
  snd (run_of pow undef p2 c2 w2) = snd (run_of pow undef p c w).
Proof.
  intros Hc Hw. unfold run_of.
  apply (sim_run RQ RX RE RP RF 1 _ _ _ _ _ _ (fun _ => True)); try assumption; try (intros; exact I); try reflexivity.
  - intros s s2 so so2 te te2 _ Hs Hso Hte. unfold evolve_of. rewrite (sw_split _ _ _ HP).
    apply sim_classic; try assumption; [reflexivity|exact (sw_source _ _ _ HP)|exact width_hyper|exact (sw_before _ _ _ HP)|right; reflexivity].
  - intros s s2 _. apply (sw_setup _ _ _ HP).
  - exact (sw_valid _ _ _ HP).
Qed.
End Program.
