(** Proofs about the multi-dimensional classic solvers, part 3: the whole split step. *)
From Verif Require Import Base BCModel BCSpec BCProofs LimiterModel LimiterProofs Classic1DModel Classic1DSpec
  Classic1DProofs Classic1DProofs2 ParallelProofs2 SweepModel SweepSpec SweepProofs SweepProofs2.

(** ** Periodic ghost cells *)
Lemma periodic_fit ng has_aux neq D : (1 <= ng)%nat -> periodic_dim ng D -> fit_dim ng has_aux neq D.
Proof.
  intros Hg [(H1 & H2 & H3 & H4 & H5 & H6) Hn]. unfold fit_dim. rewrite H1, H2, H3, H4, H5, H6. unfold standard, wide.
  repeat split; auto; try lia; destruct H as [H|H]; discriminate.
Qed.
Lemma source_periodic n g i : (0 <= g <= n)%Z -> (1 <= n)%Z -> (- g <= i < n + g)%Z -> source_cell Periodic Periodic n i = (i mod n)%Z.
Proof.
  intros H1 H2 Hi. unfold source_cell. destruct (Z.ltb_spec i 0); [|destruct (Z.leb_spec n i)].
  - rewrite <- (Z.mod_add i 1 n) by lia. rewrite Z.mod_small; lia.
  - replace i with (i - n + 1 * n)%Z at 2 by lia. rewrite Z.mod_add by lia. rewrite Z.mod_small; lia.
  - rewrite Z.mod_small; lia.
Qed.
Definition pmod (Ds : list dimbc) (pos : list Z) : list Z := map (fun p => (snd p mod ncells (fst p))%Z) (combine Ds pos).
Lemma pmod_id : forall Ds pos, in_domain Ds pos -> pmod Ds pos = pos.
Proof.
  induction Ds as [|D Ds IH]; intros [|i pos] H; cbn [in_domain] in H; try contradiction; [reflexivity|].
  destruct H as [Hi H]. cbn [pmod combine map fst snd]. rewrite Z.mod_small by exact Hi. f_equal. apply IH. exact H.
Qed.

Section P.
Variable ng : nat.
Hypothesis Hg : (1 <= ng)%nat.
Notation g := (Z.of_nat ng).
Lemma periodic_srcs lo hi Ds : (forall D, periodic_bc D -> lo D = Periodic /\ hi D = Periodic) ->
  Forall (periodic_dim ng) Ds -> forall pos, in_box ng Ds pos ->
  map (fun p => source_cell (lo (fst p)) (hi (fst p)) (ncells (fst p)) (snd p)) (combine Ds pos) = pmod Ds pos.
Proof.
  intros Hlh H. induction H as [|D Ds [HD Hn] HDs IH]; intros [|i pos] HB; cbn [in_box] in HB; try contradiction; [reflexivity|].
  destruct HB as [Hi HB]. unfold pmod. cbn [combine map fst snd]. destruct (Hlh D HD) as [-> ->].
  rewrite (source_periodic (ncells D) g i) by lia. f_equal. apply IH. exact HB.
Qed.
Lemma periodic_no_wall q c Ds : Forall (periodic_dim ng) Ds -> forall pos, in_box ng Ds pos ->
  q_ghost_value Q Qopp Ds q c pos = q c (pmod Ds pos).
Proof.
  intros H pos HB. unfold q_ghost_value. rewrite (periodic_srcs q_lo q_hi) by (try assumption; intros D (A & B & _); auto).
  generalize (q c (pmod Ds pos)) as v.
  assert (K : forall p, In p (rev (combine Ds pos)) -> behind_wall (q_lo (fst p)) (q_hi (fst p)) (ncells (fst p)) (snd p) = false).
  { intros [D i] Hp. apply in_rev in Hp. apply in_combine_l in Hp. rewrite Forall_forall in H. destruct (H D Hp) as [(A & B & _) _].
    cbn [fst snd]. rewrite A, B. unfold behind_wall. rewrite !andb_false_r. reflexivity. }
  revert K. generalize (rev (combine Ds pos)) as l. induction l as [|p l IH]; intros K v; cbn [fold_right]; [reflexivity|].
  rewrite (K p (or_introl eq_refl)), andb_false_r. apply IH. intros p' Hp'. apply K. right. exact Hp'.
Qed.
Lemma pmod_domain Ds : Forall (periodic_dim ng) Ds -> forall pos, length pos = length Ds -> in_domain Ds (pmod Ds pos).
Proof.
  intros H. induction H as [|D Ds [HD Hn] HDs IH]; intros [|i pos] HL; cbn [length] in HL; try lia; [exact I|].
  cbn [pmod combine map in_domain fst snd]. split; [apply Z.mod_pos_bound; lia|]. apply IH. lia.
Qed.
End P.

Lemma in_domain_get Ds : forall pos, in_domain Ds pos <->
  length pos = length (map ncells Ds) /\ forall j, (j < length (map ncells Ds))%nat -> (0 <= get j pos < nth j (map ncells Ds) 0)%Z.
Proof.
  induction Ds as [|D Ds IH]; intros [|i pos]; cbn [in_domain map length]; split.
  - intros _. split; [reflexivity|intros; lia].
  - auto.
  - intros [].
  - intros [H _]. discriminate.
  - intros [].
  - intros [H _]. discriminate.
  - intros [Hi H]. apply IH in H. destruct H as [HL H]. split; [lia|]. intros [|j] Hj; cbn [get nth]; [exact Hi|apply H; lia].
  - intros [HL H]. split; [apply (H 0%nat); lia|]. apply IH. split; [lia|]. intros j Hj. apply (H (S j)). lia.
Qed.
Lemma in_box_get ng Ds : forall pos, in_box ng Ds pos <->
  length pos = length (map ncells Ds) /\ forall j, (j < length (map ncells Ds))%nat -> (- Z.of_nat ng <= get j pos < nth j (map ncells Ds) 0 + Z.of_nat ng)%Z.
Proof.
  induction Ds as [|D Ds IH]; intros [|i pos]; cbn [in_box map length]; split.
  - intros _. split; [reflexivity|intros; lia].
  - auto.
  - intros [].
  - intros [H _]. discriminate.
  - intros [].
  - intros [H _]. discriminate.
  - intros [Hi H]. apply IH in H. destruct H as [HL H]. split; [lia|]. intros [|j] Hj; cbn [get nth]; [exact Hi|apply H; lia].
  - intros [HL H]. split; [apply (H 0%nat); lia|]. apply IH. split; [lia|]. intros j Hj. apply (H (S j)). lia.
Qed.
Lemma get_shift k j l : (j < length l)%nat -> get j (shift k l) = (get j l + k)%Z.
Proof.
  intros H. rewrite !get_nth. unfold shift. rewrite (nth_indep (map (fun i => (i + k)%Z) l) 0%Z (0 + k)%Z) by (rewrite map_length; exact H).
  apply (map_nth (fun i => (i + k)%Z)).
Qed.
Lemma shift_length k l : length (shift k l) = length l.
Proof. unfold shift. apply map_length. Qed.

Lemma small_stencil_spec S : small_stencil (n_nw S) (n_order S) (n_mthlim S) = false <-> limits S.
Proof.
  unfold small_stencil, limits. rewrite orb_false_iff, negb_false_iff. unfold any_limiter. rewrite existsb_exists. split.
  - intros [H (k & Hk & H1)]. apply in_seq in Hk. split; [lia|]. exists (Z.of_nat k). lia.
  - intros [H (mw & H1 & H2)]. split; [lia|]. exists (Z.to_nat mw). rewrite in_seq. split; [lia|]. rewrite Z2Nat.id by lia. lia.
Qed.

Section S.
Variable undef : Q -> Q -> Z -> Q.
Variable S : msettings.
Notation neq := (n_neq S).
Notation g := (Z.of_nat (n_ng S)).
Notation ns := (map ncells (n_bcs S)).
Hypothesis Hg : (1 <= n_ng S)%nat.
Hypothesis HP : Forall (periodic_dim (n_ng S)) (n_bcs S).

Lemma per_pos : Forall (fun n => 1 <= n)%Z ns.
Proof. apply Forall_map. eapply Forall_impl; [|exact HP]. intros D [_ H]. lia. Qed.
Lemma per_nonneg : Forall (fun n => 0 <= n)%Z ns.
Proof. eapply Forall_impl; [|exact per_pos]. cbv beta. lia. Qed.

Lemma wrap_pmod : forall Ds pos, wrap_from S (map ncells Ds) (shift g pos) = shift g (pmod Ds pos).
Proof.
  induction Ds as [|D Ds IH]; intros [|i pos]; cbn [map shift wrap_from pmod combine fst snd]; try reflexivity.
  f_equal; [replace (i + g - g)%Z with i by lia; lia|]. apply IH.
Qed.
Lemma ghosts_wrapped n (qbc : arr Q) (q : arr Q) (ext : Z) : (0 <= ext <= g)%Z ->
  (forall c pos, in_box (n_ng S) (n_bcs S) pos -> qbc c (shift g pos) = q c (pmod (n_bcs S) pos)) ->
  wrapped S n ext 0 qbc.
Proof.
  intros Hx H m ix Hm [HL HB].
  rewrite <- (shift_fwd g ix). set (pos := shift (- g) ix).
  assert (B : in_box (n_ng S) (n_bcs S) pos).
  { apply in_box_get. split; [unfold pos; rewrite shift_length; exact HL|]. intros j Hj. unfold pos. rewrite get_shift by lia.
    specialize (HB j Hj). change (Nat.ltb j 0) with false in HB. cbv iota in HB. lia. }
  rewrite (H m pos B). rewrite wrap_pmod.
  assert (LP : length pos = length (n_bcs S)) by (unfold pos; rewrite shift_length, HL, map_length; reflexivity).
  pose proof (pmod_domain (n_ng S) Hg (n_bcs S) HP pos LP) as DM.
  rewrite (H m (pmod (n_bcs S) pos)) by (apply in_domain_box; exact DM).
  rewrite (pmod_id _ (pmod (n_bcs S) pos)) by exact DM. reflexivity.
Qed.

Variable auxbc : arr Q.
Hypothesis Wa : wrapped S (n_naux S) (layers S) 0 auxbc.
Hypothesis Hk : mcapa_in_aux S.
Hypothesis Hr : (reach (n_nw S) (n_order S) (n_mthlim S) <= layers S)%Z.
Hypothesis HK : forall ix, box S 0 0 ix -> ~ mcapacity S auxbc ix == 0.
Variable flux : nat -> list Q -> list Q -> Z -> Q.
Hypothesis HC : all_conservative S flux.
Notation Tot a m := (boxsum ns (fun ix => mcapacity S auxbc (shift g ix) * a m (shift g ix))).

Lemma more_conserve m : (0 <= m < Z.of_nat neq)%Z -> forall k d st, (d + k <= length (n_bcs S))%nat ->
  wrapped S neq (layers S) d (fst st) ->
  Tot (fst (more_sweeps undef S k d auxbc st)) m == Tot (fst st) m.
Proof.
  intros Hm. induction k as [|k IH]; intros d st Hd W; cbn [more_sweeps]; [reflexivity|].
  rewrite IH.
  - cbn [fst]. apply (sweep_conserves undef S Hg per_nonneg auxbc per_pos (layers S) (layers_nonneg S) Hr Wa Hk (flux d)); auto.
    + rewrite map_length. lia.
    + apply HC. lia.
  - lia.
  - cbn [fst]. apply (sweep_wrapped undef S Hg per_nonneg auxbc per_pos (layers S) (layers_nonneg S) Hr Wa Hk); [rewrite map_length; lia|exact W].
Qed.
Theorem split_conserve m qbc : (0 <= m < Z.of_nat neq)%Z -> (1 <= length (n_bcs S))%nat ->
  wrapped S neq (layers S) 0 qbc -> Tot (fst (split_sweeps undef S auxbc qbc)) m == Tot qbc m.
Proof.
  intros Hm HL W. unfold split_sweeps. rewrite more_conserve; [|exact Hm|lia|].
  - apply (sweep_conserves undef S Hg per_nonneg auxbc per_pos (layers S) (layers_nonneg S) Hr Wa Hk (flux 0%nat)); auto.
    rewrite map_length. lia.
  - apply (sweep_wrapped undef S Hg per_nonneg auxbc per_pos (layers S) (layers_nonneg S) Hr Wa Hk); [rewrite map_length; lia|exact W].
Qed.
End S.

Theorem split_step_conserves undef S flux q aux qbc0 auxbc0 :
  (1 <= n_ng S)%nat -> Forall (periodic_dim (n_ng S)) (n_bcs S) -> (1 <= length (n_bcs S))%nat ->
  mcapa_in_aux S -> all_conservative S flux ->
  (reach (n_nw S) (n_order S) (n_mthlim S) <= layers S)%Z ->
  (forall ix, in_domain (n_bcs S) ix -> ~ mcapacity S aux ix == 0) ->
  exists q' cfl, split_step undef S q aux qbc0 auxbc0 = MStepped q' cfl /\
  forall m, (0 <= m < Z.of_nat (n_neq S))%Z -> mtotal S aux q' m == mtotal S aux q m.
Proof.
  intros Hg HP HL Hk HC Hr HK.
  assert (FD : Forall (fit_dim (n_ng S) (Nat.ltb 0 (n_naux S)) (Z.of_nat (n_neq S))) (n_bcs S)).
  { eapply Forall_impl; [|exact HP]. intros D HD. apply periodic_fit; assumption. }
  destruct (apply_bcs_at Q Qopp (n_ng S) (Nat.ltb 0 (n_naux S)) (n_funs S) (Z.of_nat (n_neq S)) (n_bcs S) q aux qbc0 auxbc0 Hg FD)
    as (qbc & auxbc & E & A & B & _).
  unfold split_step. rewrite E. cbv zeta. eexists. eexists. split; [reflexivity|]. intros m Hm.
  assert (A' : forall c pos, in_box (n_ng S) (n_bcs S) pos -> qbc c (shift (Z.of_nat (n_ng S)) pos) = q c (pmod (n_bcs S) pos)).
  { intros c pos HB. rewrite A by exact HB. apply (periodic_no_wall (n_ng S)); assumption. }
  assert (B' : n_naux S <> 0%nat -> forall c pos, in_box (n_ng S) (n_bcs S) pos -> auxbc c (shift (Z.of_nat (n_ng S)) pos) = aux c (pmod (n_bcs S) pos)).
  { intros Hna c pos HB. rewrite B by (try exact HB; apply Nat.ltb_lt; lia). unfold aux_ghost_value.
    rewrite (periodic_srcs (n_ng S) Hg a_lo a_hi (n_bcs S)); auto. intros D (_ & _ & X & Y & _). auto. }
  assert (Wa : wrapped S (n_naux S) (layers S) 0 auxbc).
  { destruct (Nat.eq_dec (n_naux S) 0) as [E0|E0].
    - intros mm ix Hmm. rewrite E0 in Hmm. lia.
    - eapply ghosts_wrapped; [exact Hg|exact HP| |exact (B' E0)]. split; [apply layers_nonneg|apply layers_ng; exact Hg]. }
  assert (CA : forall pos, in_domain (n_bcs S) pos -> mcapacity S auxbc (shift (Z.of_nat (n_ng S)) pos) = mcapacity S aux pos).
  { intros pos HD. unfold mcapacity. destruct (n_capa S) as [k|] eqn:Ek; [|reflexivity]. specialize (Hk k Ek).
    rewrite B' by (try lia; apply in_domain_box; exact HD). rewrite pmod_id by exact HD. reflexivity. }
  assert (HK' : forall ix, box S 0 0 ix -> ~ mcapacity S auxbc ix == 0).
  { intros ix [HLx HB]. rewrite <- (shift_fwd (Z.of_nat (n_ng S)) ix).
    assert (DM : in_domain (n_bcs S) (shift (- Z.of_nat (n_ng S)) ix)).
    { apply in_domain_get. split; [rewrite shift_length; exact HLx|]. intros j Hj. rewrite get_shift by lia. specialize (HB j Hj).
      change (Nat.ltb j 0) with false in HB. cbv iota in HB. lia. }
    rewrite CA by exact DM. apply HK. exact DM. }
  unfold mtotal.
  etransitivity; [|etransitivity; [apply (split_conserve undef S Hg HP auxbc Wa Hk Hr HK' flux HC m qbc Hm HL)|]].
  - apply boxsum_eq. intros ix H1 H2. rewrite CA by (apply in_domain_get; auto). reflexivity.
  - eapply ghosts_wrapped; [exact Hg|exact HP| |exact A']. split; [apply layers_nonneg|apply layers_ng; exact Hg].
  - apply boxsum_eq. intros ix H1 H2. assert (DM : in_domain (n_bcs S) ix) by (apply in_domain_get; auto).
    rewrite CA by exact DM. rewrite A' by (apply in_domain_box; exact DM). rewrite pmod_id by exact DM. reflexivity.
Qed.
