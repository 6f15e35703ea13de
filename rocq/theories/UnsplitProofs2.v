(** Proofs about the unsplit two-dimensional solver, part 2: conservation. *)
From Verif Require Import Base BCModel BCSpec BCProofs LimiterModel LimiterProofs Classic1DModel Classic1DSpec
  Classic1DProofs Classic1DProofs2 SweepModel SweepSpec SweepProofs SweepProofs2 SweepProofs3 SweepProofs4 UnsplitModel UnsplitProofs.

(** ** The transverse fluxes of slices that look the same are the same *)
Section G.
Variables (neq nw naux : nat) (ng mx : Z).
Variable fwave : bool.
Variables (order trans : Z).
Variable mthlim : Z -> Z.
Variable undef : Q -> Q -> Z -> Q.
Variable rp : rpsolver.
Variable rpt : rptsolver.
Variables (q q' a a' a1 a1' a3 a3' : Z -> Z -> Q) (d d' : Z -> Q).
Notation R q a := (solve_rps rp neq naux (-1) q a).
Notation F := (flux2 neq nw naux ng mx fwave order trans mthlim undef rp rpt q d a1 a a3).
Notation F' := (flux2 neq nw naux ng mx fwave order trans mthlim undef rp rpt q' d' a1' a' a3').
Hypothesis Hq : forall k, (-1 <= k <= mx + 2)%Z -> vec neq q k = vec neq q' k.
Hypothesis Ha : forall k, (-1 <= k <= mx + 2)%Z -> vec naux a k = vec naux a' k /\ vec naux a1 k = vec naux a1' k /\ vec naux a3 k = vec naux a3' k.
Hypothesis Hd : forall k, (-1 <= k <= mx + 2)%Z -> d k = d' k.

Lemma rows_near r e : (r <= 2)%Z -> (1 <= e <= mx + 1)%Z -> near neq naux r q d a e q' d' a' e.
Proof. intros Hr He k Hk. split; [apply Hq; lia|]. split; [apply Ha; lia|apply Hd; lia]. Qed.
Lemma reach_2 : (reach nw order mthlim <= 2)%Z.
Proof. unfold reach. destruct (small_stencil nw order mthlim); lia. Qed.
Lemma rows_cqxx m e : (0 <= m < Z.of_nat neq)%Z -> order <> 1%Z -> (1 <= e <= mx + 1)%Z ->
  f_cqxx nw fwave d (spd (R q a)) (if any_limiter nw mthlim then f_limiter neq mx mthlim undef (wave (R q a)) (spd (R q a)) else wave (R q a)) m e =
  f_cqxx nw fwave d' (spd (R q' a')) (if any_limiter nw mthlim then f_limiter neq mx mthlim undef (wave (R q' a')) (spd (R q' a')) else wave (R q' a')) m e.
Proof.
  intros Hm Ho He. pose proof (rows_near (reach nw order mthlim) e reach_2 He) as H.
  destruct (near_R neq naux rp q q' a a' d d' e e (rows_near 1 e ltac:(lia) He)) as (_ & S1 & _).
  unfold f_cqxx. rewrite (Hd e), (Hd (e - 1)%Z) by lia. apply zsum_ext. intros mw Hmw. rewrite S1.
  pose proof (near_lim neq nw naux mx order mthlim undef rp q q' a a' d d' m mw e e Hm Ho H He He) as L. unfold lim_waves in L. rewrite L. reflexivity.
Qed.
Lemma rows_gadd m i : (0 <= m < Z.of_nat neq)%Z -> (1 <= i <= mx)%Z -> gadd1 F m i = gadd1 F' m i /\ gadd2 F m i = gadd2 F' m i.
Proof.
  intros Hm Hi. unfold flux2. destruct (Z.leb trans 0); [auto|]. cbv zeta. cbn [gadd1 gadd2].
  rewrite !in_slice_true by lia. rewrite !(Hd i) by lia.
  destruct (near_R neq naux rp q q' a a' d d' i i (rows_near 1 i ltac:(lia) ltac:(lia))) as (_ & _ & _ & P0).
  destruct (near_R neq naux rp q q' a a' d d' (i + 1) (i + 1) (rows_near 1 (i + 1) ltac:(lia) ltac:(lia))) as (_ & _ & M1 & _).
  replace (i + 1 - 1)%Z with i by lia.
  rewrite (Hq i), (Hq (i - 1)%Z), (Hq (i + 1)%Z) by lia.
  destruct (Ha i ltac:(lia)) as (-> & -> & ->). destruct (Ha (i - 1)%Z ltac:(lia)) as (-> & -> & ->). destruct (Ha (i + 1)%Z ltac:(lia)) as (-> & -> & ->).
  assert (EM : forall b, (b = true -> order <> 1%Z) -> vec neq (fun m0 i0 => if (b && in_slice 1 (mx + 2) i0)%bool then amdq (R q a) m0 i0 +
      f_cqxx nw fwave d (spd (R q a)) (if any_limiter nw mthlim then f_limiter neq mx mthlim undef (wave (R q a)) (spd (R q a)) else wave (R q a)) m0 i0
      else amdq (R q a) m0 i0) (i + 1)%Z =
    vec neq (fun m0 i0 => if (b && in_slice 1 (mx + 2) i0)%bool then amdq (R q' a') m0 i0 +
      f_cqxx nw fwave d' (spd (R q' a')) (if any_limiter nw mthlim then f_limiter neq mx mthlim undef (wave (R q' a')) (spd (R q' a')) else wave (R q' a')) m0 i0
      else amdq (R q' a') m0 i0) (i + 1)%Z).
  { intros b Hb. apply vec_ext. intros c Hc. destruct b; cbn [andb]; [|apply M1]. rewrite in_slice_true by lia. rewrite M1, rows_cqxx; auto; lia. }
  assert (EP : forall b, (b = true -> order <> 1%Z) -> vec neq (fun m0 i0 => if (b && in_slice 1 (mx + 2) i0)%bool then apdq (R q a) m0 i0 -
      f_cqxx nw fwave d (spd (R q a)) (if any_limiter nw mthlim then f_limiter neq mx mthlim undef (wave (R q a)) (spd (R q a)) else wave (R q a)) m0 i0
      else apdq (R q a) m0 i0) i =
    vec neq (fun m0 i0 => if (b && in_slice 1 (mx + 2) i0)%bool then apdq (R q' a') m0 i0 -
      f_cqxx nw fwave d' (spd (R q' a')) (if any_limiter nw mthlim then f_limiter neq mx mthlim undef (wave (R q' a')) (spd (R q' a')) else wave (R q' a')) m0 i0
      else apdq (R q' a') m0 i0) i).
  { intros b Hb. apply vec_ext. intros c Hc. destruct b; cbn [andb]; [|apply P0]. rewrite in_slice_true by lia. rewrite P0, rows_cqxx; auto; lia. }
  assert (Hb : (Z.ltb 1 order && Z.eqb trans 2)%bool = true -> order <> 1%Z) by lia.
  rewrite (EM _ Hb), (EP _ Hb). auto.
Qed.
End G.

Lemma boxsum_zero ns : boxsum ns (fun _ => 0) == 0.
Proof. induction ns as [|n ns IH]; cbn [boxsum]; [reflexivity|]. apply zsum_zero. intros. exact IH. Qed.
Lemma boxsum_plus ns : forall f h, boxsum ns (fun ix => f ix + h ix) == boxsum ns f + boxsum ns h.
Proof.
  induction ns as [|n ns IH]; intros f h; cbn [boxsum]; [reflexivity|]. rewrite <- zsum_plus. apply zsum_eq. intros i _. apply IH.
Qed.

Section C.
Variable undef : Q -> Q -> Z -> Q.
Variable S : msettings.
Variable trans : Z.
Notation neq := (n_neq S).
Notation g := (Z.of_nat (n_ng S)).
Notation ns := (map ncells (n_bcs S)).
Notation mxd d := (nth d ns 0%Z).
Hypothesis Hg : (2 <= n_ng S)%nat.
Hypothesis HL : length (n_bcs S) = 2%nat.
Hypothesis Hp : Forall (fun n => 1 <= n)%Z ns.
Variable auxbc qbc : arr Q.
Hypothesis Wq : wrapped S neq g 0 qbc.
Hypothesis Wa : wrapped S (n_naux S) g 0 auxbc.
Hypothesis Hk : mcapa_in_aux S.
Notation F d j := (t_flux undef S trans d auxbc qbc j).

Lemma ns_2 : exists nx ny, ns = [nx; ny] /\ (1 <= nx)%Z /\ (1 <= ny)%Z.
Proof.
  destruct (n_bcs S) as [|D1 [|D2 [|D3 l]]]; try discriminate HL. exists (ncells D1), (ncells D2). split; [reflexivity|].
  inversion Hp as [|x l H1 H2 E1]; subst. inversion H2 as [|y l' H3 H4 E2]; subst. auto.
Qed.
(** Rows one period apart are the same. *)
Lemma row_periodic n a d r c k : (d < 2)%nat -> wrapped S n g 0 a -> (0 <= c < Z.of_nat n)%Z ->
  (1 - g <= r)%Z -> (r + mxd (1 - d) <= mxd (1 - d) + g)%Z -> (1 - g <= k <= mxd d + g)%Z ->
  t_row S d (r + mxd (1 - d)) a c k = t_row S d r a c k.
Proof.
  intros Hd W Hc H1 H2 Hk'. destruct ns_2 as (nx & ny & En & Hx & Hy). unfold t_row, slice. rewrite En in *.
  destruct d as [|[|d]]; [| |lia]; cbn [Nat.sub put nth] in *.
  - rewrite (W c [(k + g - 1)%Z; (r + ny + g - 1)%Z]), (W c [(k + g - 1)%Z; (r + g - 1)%Z]); auto.
    + rewrite En. cbn [wrap_from]. replace (r + ny + g - 1 - g)%Z with (r + g - 1 - g + 1 * ny)%Z by lia. rewrite Z.mod_add by lia. reflexivity.
    + split; [rewrite En; reflexivity|]. rewrite En. intros [|[|j]] Hj; cbn in Hj |- *; lia.
    + split; [rewrite En; reflexivity|]. rewrite En. intros [|[|j]] Hj; cbn in Hj |- *; lia.
  - rewrite (W c [(r + nx + g - 1)%Z; (k + g - 1)%Z]), (W c [(r + g - 1)%Z; (k + g - 1)%Z]); auto.
    + rewrite En. cbn [wrap_from]. replace (r + nx + g - 1 - g)%Z with (r + g - 1 - g + 1 * nx)%Z by lia. rewrite Z.mod_add by lia. reflexivity.
    + split; [rewrite En; reflexivity|]. rewrite En. intros [|[|j]] Hj; cbn in Hj |- *; lia.
    + split; [rewrite En; reflexivity|]. rewrite En. intros [|[|j]] Hj; cbn in Hj |- *; lia.
Qed.
Lemma gadd_periodic d r m i : (d < 2)%nat -> (0 <= m < Z.of_nat neq)%Z -> (0 <= r <= 1)%Z -> (1 <= i <= mxd d)%Z ->
  gadd1 (F d (r + mxd (1 - d))) m i = gadd1 (F d r) m i /\ gadd2 (F d (r + mxd (1 - d))) m i = gadd2 (F d r) m i.
Proof.
  intros Hd Hm Hr Hi. unfold t_flux. apply rows_gadd; auto.
  - intros k Hk'. apply vec_ext. intros c Hc. apply (row_periodic neq); auto; lia.
  - intros k Hk'. replace (r + mxd (1 - d) - 1)%Z with (r - 1 + mxd (1 - d))%Z by lia. replace (r + mxd (1 - d) + 1)%Z with (r + 1 + mxd (1 - d))%Z by lia.
    repeat split; apply vec_ext; intros c Hc; apply (row_periodic (n_naux S)); auto; lia.
  - intros k Hk'. apply line_dtdx_eq; [exact Hk|]. intros c Hc. apply (row_periodic (n_naux S)); auto; lia.
Qed.

Hypothesis HK : forall ix, box S 0 0 ix -> ~ mcapacity S auxbc ix == 0.
Lemma trans_total d m : (d < 2)%nat -> (0 <= m < Z.of_nat neq)%Z ->
  boxsum ns (fun ix => mcapacity S auxbc (shift g ix) * t_trans undef S trans auxbc qbc d m (shift g ix)) == 0.
Proof.
  intros Hd Hm. assert (HLn : length ns = 2%nat) by (rewrite map_length; exact HL).
  etransitivity; [apply (boxsum_dim (1 - d)); lia|]. etransitivity; [|apply (boxsum_zero (put (1 - d) 1 ns))].
  apply boxsum_eq. intros ix HLx HB. rewrite put_length in *.
  pose proof (HB d ltac:(lia)) as Hi. assert (Hi' : (0 <= get d ix < mxd d)%Z) by (clear - Hi Hd; rewrite <- !get_nth in Hi; rewrite get_put_other in Hi by lia; rewrite <- get_nth; lia). clear HB Hi. rename Hi' into Hi.
  assert (P : forall j, (d < length (put (1 - d) j ix))%nat) by (intros; rewrite put_length; lia).
  set (G1 := fun r => gadd1 (F d r) m (get d ix + 1)%Z). set (G2 := fun r => gadd2 (F d r) m (get d ix + 1)%Z).
  set (D := n_dt S / n_delta S (1 - d)).
  etransitivity; [apply (zsum_eq _ _ _ (fun j => D * ((- (G1 (j + 1 + 1)%Z - G1 (j + 1)%Z)) - (G2 (j + 1)%Z - G2 j))))|].
  - intros j Hj. unfold t_trans. cbv zeta.
    rewrite !get_shift by (rewrite put_length; lia). rewrite get_put by lia. rewrite get_put_other by lia.
    replace (get d ix + g - g + 1)%Z with (get d ix + 1)%Z by lia. replace (j + g - g + 1)%Z with (j + 1)%Z by lia. replace (j + 1 - 1)%Z with j by lia.
    fold D. fold (G1 (j + 1)%Z). fold (G1 (j + 1 + 1)%Z). fold (G2 (j + 1)%Z). fold (G2 j).
    assert (NZ : ~ mcapacity S auxbc (shift g (put (1 - d) j ix)) == 0).
    { apply HK. split; [rewrite shift_length, put_length; lia|]. intros e He. change (Nat.ltb e 0) with false. cbv iota.
      rewrite get_shift by (rewrite put_length; lia). destruct (Nat.eq_dec e (1 - d)) as [E|Hne].
      - subst e. rewrite get_put by lia. lia.
      - replace e with d by lia. rewrite get_put_other by lia. lia. }
    unfold mcapacity in *. destruct (n_capa S) as [k|]; [|ring]. field. exact NZ.
  - rewrite zsum_scale, zsum_minus.
    rewrite (zsum_eq 0 _ (fun j => - (G1 (j + 1 + 1)%Z - G1 (j + 1)%Z)) (fun j => -(1) * (G1 (j + 1 + 1)%Z - G1 (j + 1)%Z))) by (intros; ring).
    rewrite zsum_scale. rewrite (zsum_telescope 0 _ (fun j => G1 (j + 1)%Z)), (zsum_telescope 0 _ G2).
    pose proof (np S Hp (1 - d) ltac:(lia)) as Hny. rewrite Z2Nat.id by lia. replace (0 + mxd (1 - d) + 1)%Z with (1 + mxd (1 - d))%Z by lia.
    unfold G1, G2. destruct (gadd_periodic d 1 m (get d ix + 1) Hd Hm ltac:(lia) ltac:(lia)) as [-> _].
    destruct (gadd_periodic d 0 m (get d ix + 1) Hd Hm ltac:(lia) ltac:(lia)) as [_ ->].
    replace (0 + 1)%Z with 1%Z by lia. ring.
Qed.

Variable flux : nat -> list Q -> list Q -> Z -> Q.
Hypothesis HC : all_conservative S flux.
Lemma unsplit_total m : (0 <= m < Z.of_nat neq)%Z ->
  boxsum ns (fun ix => mcapacity S auxbc (shift g ix) * fst (step2 undef S trans auxbc qbc qbc) m (shift g ix)) ==
  boxsum ns (fun ix => mcapacity S auxbc (shift g ix) * qbc m (shift g ix)).
Proof.
  intros Hm. assert (Hn : Forall (fun n => 0 <= n)%Z ns) by (eapply Forall_impl; [|exact Hp]; cbv beta; lia).
  assert (HLn : length ns = 2%nat) by (rewrite map_length; exact HL).
  assert (Hg1 : (1 <= n_ng S)%nat) by lia. assert (Hx : (0 <= g)%Z) by lia.
  assert (Hr : (reach (n_nw S) (n_order S) (n_mthlim S) <= g)%Z) by (unfold reach; destruct (small_stencil _ _ _); lia).
  assert (Wd : forall d, wrapped S neq g d qbc).
  { intros d c ix Hc HB. apply Wq; [exact Hc|]. destruct HB as [HLx HB]. split; [exact HLx|]. intros j Hj. specialize (HB j Hj).
    change (Nat.ltb j 0) with false. cbv iota. destruct (Nat.ltb j d); lia. }
  pose proof (fun d alias Hd => sweep_conserves undef S Hg1 Hn auxbc Hp g Hx Hr Wa Hk (flux d) d alias qbc m Hd (HC d ltac:(lia)) Hm (Wd d) HK) as SC.
  pose proof (SC 0%nat false ltac:(lia)) as S0. pose proof (SC 1%nat false ltac:(lia)) as S1.
  pose (B := boxsum ns (fun ix => mcapacity S auxbc (shift g ix) * qbc m (shift g ix))).
  assert (E : boxsum ns (fun ix => mcapacity S auxbc (shift g ix) * fst (step2 undef S trans auxbc qbc qbc) m (shift g ix)) ==
    boxsum ns (fun ix => mcapacity S auxbc (shift g ix) * fst (sweep undef S g false 0 auxbc qbc qbc) m (shift g ix)) +
    boxsum ns (fun ix => mcapacity S auxbc (shift g ix) * fst (sweep undef S g false 1 auxbc qbc qbc) m (shift g ix)) + -(1) * B +
    boxsum ns (fun ix => mcapacity S auxbc (shift g ix) * t_trans undef S trans auxbc qbc 0 m (shift g ix)) + boxsum ns (fun ix => mcapacity S auxbc (shift g ix) * t_trans undef S trans auxbc qbc 1 m (shift g ix))).
  { assert (NB : -(1) * B == boxsum ns (fun ix => - (mcapacity S auxbc (shift g ix) * qbc m (shift g ix)))).
    { unfold B. assert (X : boxsum ns (fun ix => mcapacity S auxbc (shift g ix) * qbc m (shift g ix)) + boxsum ns (fun ix => - (mcapacity S auxbc (shift g ix) * qbc m (shift g ix))) == 0).
      { rewrite <- boxsum_plus. etransitivity; [|apply (boxsum_zero ns)]. apply boxsum_eq. intros. ring. }
      lra. }
    rewrite NB, <- !boxsum_plus. apply boxsum_eq. intros ix HLx HI.
    destruct (sweep_at undef S Hg1 Hn g false 0 auxbc qbc Hx ltac:(lia)) as [A0 _]. destruct (sweep_at undef S Hg1 Hn g false 1 auxbc qbc Hx ltac:(lia)) as [A1 _].
    rewrite A0, A1 by exact Hm. rewrite (step2_value undef S trans Hg1 auxbc qbc HL Hn g m); [ring|exact Hx|].
    split; [rewrite shift_length; lia|]. intros d Hd. rewrite get_shift by lia. specialize (HI d ltac:(lia)). lia. }
  etransitivity; [exact E|]. rewrite S0, S1, !trans_total by (exact Hm || lia). unfold B. ring.
Qed.
End C.

Theorem unsplit_step_conserves undef S trans flux q aux qbc0 auxbc0 :
  length (n_bcs S) = 2%nat -> (2 <= n_ng S)%nat -> Forall (periodic_dim (n_ng S)) (n_bcs S) ->
  mcapa_in_aux S -> all_conservative S flux ->
  (forall ix, in_domain (n_bcs S) ix -> ~ mcapacity S aux ix == 0) ->
  exists q' cfl, unsplit_step undef S trans q aux qbc0 auxbc0 = MStepped q' cfl /\
  forall m, (0 <= m < Z.of_nat (n_neq S))%Z -> mtotal S aux q' m == mtotal S aux q m.
Proof.
  intros HL Hg2 HP Hk HC HK. assert (Hg : (1 <= n_ng S)%nat) by lia.
  assert (FD : Forall (fit_dim (n_ng S) (Nat.ltb 0 (n_naux S)) (Z.of_nat (n_neq S))) (n_bcs S)).
  { eapply Forall_impl; [|exact HP]. intros D HD. apply periodic_fit; assumption. }
  destruct (apply_bcs_at Q Qopp (n_ng S) (Nat.ltb 0 (n_naux S)) (n_funs S) (Z.of_nat (n_neq S)) (n_bcs S) q aux qbc0 auxbc0 Hg FD)
    as (qbc & auxbc & E & A & B & _).
  unfold unsplit_step. rewrite E. cbv zeta. eexists. eexists. split; [reflexivity|]. intros m Hm.
  assert (A' : forall c pos, in_box (n_ng S) (n_bcs S) pos -> qbc c (shift (Z.of_nat (n_ng S)) pos) = q c (pmod (n_bcs S) pos)).
  { intros c pos HB. rewrite A by exact HB. apply (periodic_no_wall (n_ng S)); assumption. }
  assert (B' : n_naux S <> 0%nat -> forall c pos, in_box (n_ng S) (n_bcs S) pos -> auxbc c (shift (Z.of_nat (n_ng S)) pos) = aux c (pmod (n_bcs S) pos)).
  { intros Hna c pos HB. rewrite B by (try exact HB; apply Nat.ltb_lt; lia). unfold aux_ghost_value.
    rewrite (periodic_srcs (n_ng S) Hg a_lo a_hi (n_bcs S)); auto. intros D (_ & _ & X & Y & _). auto. }
  assert (Wa : wrapped S (n_naux S) (Z.of_nat (n_ng S)) 0 auxbc).
  { destruct (Nat.eq_dec (n_naux S) 0) as [E0|E0].
    - intros mm ix Hmm. rewrite E0 in Hmm. lia.
    - eapply ghosts_wrapped; [exact Hg|exact HP| |exact (B' E0)]. lia. }
  assert (CA : forall pos, in_domain (n_bcs S) pos -> mcapacity S auxbc (shift (Z.of_nat (n_ng S)) pos) = mcapacity S aux pos).
  { intros pos HD. unfold mcapacity. destruct (n_capa S) as [k|] eqn:Ek; [|reflexivity]. specialize (Hk k Ek).
    rewrite B' by (try lia; apply in_domain_box; exact HD). rewrite pmod_id by exact HD. reflexivity. }
  assert (HK' : forall ix, box S 0 0 ix -> ~ mcapacity S auxbc ix == 0).
  { intros ix [HLx HB]. rewrite <- (shift_fwd (Z.of_nat (n_ng S)) ix).
    assert (DM : in_domain (n_bcs S) (shift (- Z.of_nat (n_ng S)) ix)).
    { apply in_domain_get. split; [rewrite shift_length; exact HLx|]. intros j Hj. rewrite get_shift by lia. specialize (HB j Hj).
      change (Nat.ltb j 0) with false in HB. cbv iota in HB. lia. }
    rewrite CA by exact DM. apply HK. exact DM. }
  assert (Wq : wrapped S (n_neq S) (Z.of_nat (n_ng S)) 0 qbc) by (eapply ghosts_wrapped; [exact Hg|exact HP| |exact A']; lia).
  unfold mtotal.
  etransitivity; [|etransitivity; [apply (unsplit_total undef S trans Hg2 HL (per_pos S Hg HP) auxbc qbc Wq Wa Hk HK' flux HC m Hm)|]].
  - apply boxsum_eq. intros ix H1 H2. rewrite CA by (apply in_domain_get; auto). reflexivity.
  - apply boxsum_eq. intros ix H1 H2. assert (DM : in_domain (n_bcs S) ix) by (apply in_domain_get; auto).
    rewrite CA by exact DM. rewrite A' by (apply in_domain_box; exact DM). rewrite pmod_id by exact DM. reflexivity.
Qed.
