(** Proofs about parallel runs, part 3: a step of all processes is the serial step. *)
From Verif Require Import Base BCModel BCSpec BCProofs LimiterModel LimiterSpec LimiterProofs
  Classic1DModel Classic1DSpec Classic1DProofs Classic1DProofs2 Classic1DProofs3 Classic1DProofs5
  GeometrySpec ParallelModel ParallelSpec ParallelProofs ParallelProofs2.

Lemma cuts_cover : forall bs lo hi i, cuts lo hi bs -> (lo <= i < hi)%Z -> exists b, In b bs /\ (fst b <= i < snd b)%Z.
Proof.
  induction bs as [|[x y] bs IH]; intros lo hi i HC Hi; cbn [cuts] in HC; [lia|]. destruct HC as (-> & Hlt & HC).
  destruct (Z.lt_ge_cases i y) as [H|H].
  - exists (lo, y). cbn [fst snd]. split; [left; reflexivity|lia].
  - destruct (IH y hi i HC ltac:(lia)) as (b & Hb & Hi'). exists b. split; [right; exact Hb|exact Hi'].
Qed.

Lemma par_collect_stopped : forall rs, (forall b r, In (b, r) rs -> r = Stopped \/ exists a c, r = Stepped a c) ->
  (exists b, In (b, Stopped) rs) -> par_collect rs = Stopped.
Proof.
  induction rs as [|[b r] rs IH]; intros HA [b0 HB]; [contradiction|]. cbn [par_collect].
  destruct (HA b r (or_introl eq_refl)) as [-> | (a & c & ->)]; [reflexivity|].
  destruct HB as [HB|HB]; [discriminate|].
  rewrite IH; [reflexivity| |exists b0; exact HB]. intros b' r' Hin. apply (HA b' r'). right. exact Hin.
Qed.

(** Every process takes the step: the collected array agrees with [f] if all parts do, and the collected
    Courant number is the largest. *)
Lemma par_collect_stepped (f : Z -> Z -> Q) (P : Z -> Prop) : forall rs,
  (forall b r, In (b, r) rs -> exists a c, r = Stepped a c /\ 0 <= c /\ forall m i, P m -> (fst b <= i < snd b)%Z -> a m (i - fst b)%Z = f m i) ->
  exists A c, par_collect rs = Stepped A c /\
  (forall m i, P m -> (exists b r, In (b, r) rs /\ (fst b <= i < snd b)%Z) -> A m i = f m i) /\
  0 <= c /\ (forall b a c', In (b, Stepped a c') rs -> c' <= c) /\ (c = 0 \/ exists b a, In (b, Stepped a c) rs).
Proof.
  induction rs as [|[b r] rs IH]; intros H; cbn [par_collect].
  - exists (fun _ _ => 0), 0. split; [reflexivity|]. split; [intros m i _ (b & r & [] & _)|]. split; [lra|]. split; [intros b a c' []|]. left. reflexivity.
  - destruct (H b r (or_introl eq_refl)) as (a & c & -> & Hc & Ha).
    destruct IH as (A & c0 & E & IA & I0 & I1 & I2).
    { intros b' r' Hin. apply H. right. exact Hin. }
    rewrite E. eexists. exists (pymax c c0). split; [reflexivity|]. destruct (pymax_spec c c0) as (M1 & M2 & M3). split; [|split; [lra|split]].
    + intros m i Hm (b' & r' & Hin & Hi). destruct (in_slice (fst b) (snd b) i) eqn:Es.
      * apply Ha; [exact Hm|]. unfold in_slice in Es. lia.
      * apply IA; [exact Hm|]. destruct Hin as [Hin|Hin].
        -- injection Hin as <- _. rewrite in_slice_true in Es by exact Hi. discriminate.
        -- exists b', r'. auto.
    + intros b' a' c' [Hin|Hin]; [injection Hin as _ _ <-; exact M1|]. specialize (I1 _ _ _ Hin). lra.
    + destruct M3 as [-> | ->].
      * right. exists b, a. left. reflexivity.
      * destruct I2 as [-> | (b' & a' & Hin)]; [left; reflexivity|]. right. exists b', a'. right. exact Hin.
Qed.

Section P.
Variable pow : Q -> Q -> Q.
Variable undef : Q -> Q -> Z -> Q.
Variable C : settings.
Variable L : lang.
Notation neq := (c_neq C).
Notation nw := (c_nw C).
Notation ng := (Z.of_nat (c_ng C)).
Notation mx := (ncells (c_bc C)).
Variable bs : list (Z * Z).
Hypothesis Hg : (2 <= c_ng C)%nat.
Hypothesis HF : fit_dim (c_ng C) (has_aux C) (Z.of_nat neq) (c_bc C).
Hypothesis HD : decomposed (c_ng C) mx bs.

Lemma box_fits b : In b bs -> fit_box (c_ng C) (has_aux C) (Z.of_nat neq) (c_bc C) b.
Proof.
  intros Hin. destruct HF as (_ & _ & Hr & Q1 & Q2 & _ & HA). apply decomposed_box with (bs := bs); try assumption; [lia|].
  intros Ha. destruct (HA Ha) as (A1 & A2 & _). auto.
Qed.
(** Ghost values depend on the cells only. *)
Lemma ghost_same (q q' : arr Q) m i : same_cells neq mx q q' -> (0 <= m < Z.of_nat neq)%Z -> (- ng <= i < mx + ng)%Z ->
  q_ghost_value Q Qopp [c_bc C] q' m [i] = q_ghost_value Q Qopp [c_bc C] q m [i].
Proof.
  intros HS Hm Hi. destruct HF as (_ & _ & _ & Q1 & Q2 & Q3 & _).
  unfold q_ghost_value. cbn [combine map fst snd]. rewrite (HS m (source_cell (q_lo (c_bc C)) (q_hi (c_bc C)) mx i)); [reflexivity|exact Hm|].
  eapply source_in; eassumption.
Qed.
Lemma ghost_aux_same (a a' : arr Q) m i : same_cells (c_naux C) mx a a' -> (0 <= m < Z.of_nat (c_naux C))%Z -> (- ng <= i < mx + ng)%Z ->
  aux_ghost_value Q [c_bc C] a' m [i] = aux_ghost_value Q [c_bc C] a m [i].
Proof.
  intros HS Hm Hi. destruct HF as (_ & _ & _ & _ & _ & _ & HA). destruct HA as (A1 & A2 & A3); [unfold has_aux; apply Nat.ltb_lt; lia|].
  unfold aux_ghost_value. cbn [combine map fst snd]. symmetry. apply HS; [exact Hm|]. eapply source_in; eassumption.
Qed.
Lemma local_ok (q aux q' aux' auxbc0 : arr Q) qbc auxbc b :
  same_cells neq mx q q' -> same_cells (c_naux C) mx aux aux' ->
  (forall m i, (- ng <= i < mx + ng)%Z -> qbc m (i + ng)%Z = q_ghost_value Q Qopp [c_bc C] q m [i]) ->
  (has_aux C = true -> forall m i, (- ng <= i < mx + ng)%Z -> auxbc m (i + ng)%Z = aux_ghost_value Q [c_bc C] aux m [i]) ->
  In b bs ->
  exists qbc' auxbc',
  (forall k, (0 <= k < ncells (local_bc (c_bc C) b) + 2 * ng)%Z -> same_cell C qbc' auxbc' qbc auxbc k (k + fst b)) /\
  local_step pow undef L C q' aux' auxbc0 b =
    match kernel pow undef L (with_bc C (local_bc (c_bc C) b)) qbc' auxbc' with
    | None => Stopped
    | Some (q', cfl) => Stepped (fun m i => q' m (i + ng)%Z) cfl
    end.
Proof.
  intros Sq Sx Hq Hx Hin. pose proof (box_fits b Hin) as HB. unfold local_step.
  destruct (par_bcs_at Q Qopp (c_ng C) (has_aux C) (c_funs C) (Z.of_nat neq) [c_bc C] [b] q' aux' auxbc0) as (qb & xb & E & A & B & _).
  { lia. } { constructor; [exact HB|constructor]. }
  fold (has_aux C). rewrite E. exists (fun m i => qb m [i]), (fun m i => xb m [i]). split; [|reflexivity].
  destruct HB as (_ & _ & _ & _ & HB & _).
  intros k Hk. cbn [local_bc ncells] in Hk.
  assert (IB : in_box (c_ng C) (local_bcs [c_bc C] [b]) [(k - ng)%Z]).
  { cbn [local_bcs combine map in_box local_bc ncells fst snd]. split; [lia|exact I]. }
  split; apply vec_ext; intros m Hm.
  - specialize (A m [(k - ng)%Z] IB). cbn [shift map global_pos combine fst snd] in A.
    replace (k - ng + ng)%Z with k in A by lia. rewrite A.
    replace (k + fst b)%Z with (fst b + (k - ng) + ng)%Z by lia. rewrite Hq by lia. apply ghost_same; [exact Sq|exact Hm|lia].
  - destruct (Bool.bool_dec (has_aux C) true) as [Ea|Ea].
    + specialize (B Ea m [(k - ng)%Z] IB). cbn [shift map global_pos combine fst snd] in B.
      replace (k - ng + ng)%Z with k in B by lia. rewrite B.
      replace (k + fst b)%Z with (fst b + (k - ng) + ng)%Z by lia. rewrite Hx by (exact Ea || lia). apply ghost_aux_same; [exact Sx|exact Hm|lia].
    + apply not_true_is_false in Ea. unfold has_aux in Ea. apply Nat.ltb_ge in Ea. lia.
Qed.

Hypothesis HL : local_limiters_only pow L C.
Hypothesis HC : capa_in_aux C.

Theorem par_step_serial (q aux q' aux' qbc0 auxbc0 auxbc0' : arr Q) :
  same_cells neq mx q q' -> same_cells (c_naux C) mx aux aux' ->
  match step_hyperbolic pow undef L C q aux qbc0 auxbc0, par_step pow undef L C bs q' aux' auxbc0' with
  | Stepped q1 c1, Stepped q2 c2 =>
      (forall m i, (0 <= m < Z.of_nat neq)%Z -> (0 <= i < mx)%Z -> q2 m i = q1 m i) /\ c2 == c1
  | Stopped, Stopped => True
  | _, _ => False
  end.
Proof.
  intros Sq Sx. assert (Hn : (1 <= mx)%Z) by (destruct HF as (_ & _ & _ & _ & _ & (_ & _ & W) & _); exact W).
  destruct (step_ok pow undef C L q aux qbc0 auxbc0 ltac:(lia) HF) as (qbc & auxbc & Hq & Hx & E). rewrite E. clear E.
  pose proof (fun b => local_ok q aux q' aux' auxbc0' qbc auxbc b Sq Sx Hq Hx) as LO.
  assert (Cov : forall i, (0 <= i < mx)%Z -> exists b, In b bs /\ (fst b <= i < snd b)%Z).
  { intros i Hi. destruct HD as [HC' _]. exact (cuts_cover bs 0 mx i HC' Hi). }
  assert (Box : forall b, In b bs -> (0 <= fst b /\ fst b < snd b /\ snd b <= mx)%Z).
  { intros b Hb. destruct (box_fits b Hb) as (_ & _ & _ & _ & HB & _). lia. }
  destruct (kernel pow undef L C qbc auxbc) as [[Q' c]|] eqn:EK.
  - (* the serial kernel succeeds *)
    assert (All : forall b, In b bs -> exists qb xb q1 c1, (forall k, (0 <= k < ncells (local_bc (c_bc C) b) + 2 * ng)%Z -> same_cell C qb xb qbc auxbc k (k + fst b)) /\
       kernel pow undef L (with_bc C (local_bc (c_bc C) b)) qb xb = Some (q1, c1) /\
       local_step pow undef L C q' aux' auxbc0' b = Stepped (fun m i => q1 m (i + ng)%Z) c1).
    { intros b Hb. destruct (LO b Hb) as (qb & xb & HS & E). exists qb, xb.
      destruct (kernel pow undef L (with_bc C (local_bc (c_bc C) b)) qb xb) as [[q1 c1]|] eqn:EL.
      - exists q1, c1. auto.
      - exfalso. destruct (kernel_stopped _ _ _ _ _ _ EL) as (-> & k & i & Hk & Hi & Hle).
        cbn [with_bc c_capa c_bc c_ng] in Hk, Hi. specialize (Box b Hb).
        rewrite (kernel_stops pow undef Fortran C qbc auxbc) in EK; [discriminate| |reflexivity].
        exists k, (i + fst b)%Z. split; [exact Hk|]. cbn [local_bc ncells] in Hi. split; [lia|].
        destruct (HS i Hi) as [_ V]. rewrite (vec_inj _ _ _ _ _ k V) in Hle by (apply HC; exact Hk). exact Hle. }
    destruct (par_collect_stepped (fun m i => Q' m (i + ng)%Z) (fun m => (0 <= m < Z.of_nat neq)%Z) (map (fun b => (b, local_step pow undef L C q' aux' auxbc0' b)) bs)) as (A & c' & EP & PA & P0 & P1 & P2).
    { intros b r Hin. apply in_map_iff in Hin. destruct Hin as (b' & Eb & Hb). injection Eb as -> <-.
      destruct (All b Hb) as (qb & xb & q1 & c1 & HS & EL & ->). eexists. exists c1. split; [reflexivity|]. specialize (Box b Hb). split.
      - destruct (kernel_cfl_fst _ _ _ _ _ _ _ _ EL) as (l & (M & _) & _); [cbn [with_bc c_bc local_bc ncells]; lia|exact M].
      - intros m i Hm Hi. cbv beta.
        rewrite (kernel_window pow undef C (local_bc (c_bc C) b) (fst b) L Hg HL HC) with (q2 := Q') (qbc' := qb) (auxbc' := xb) (qbc := qbc) (auxbc := auxbc) (c1 := c1) (c2 := c);
          try assumption; cbn [local_bc ncells]; try lia. f_equal. lia. }
    unfold par_step. rewrite EP. split.
    + intros m i Hm Hi. apply PA; [exact Hm|]. destruct (Cov i Hi) as (b & Hb & Hi'). exists b, (local_step pow undef L C q' aux' auxbc0' b).
      split; [|exact Hi']. apply in_map_iff. exists b. auto.
    + destruct (kernel_cfl_fst _ _ _ _ _ _ _ _ EK ltac:(lia)) as (l & ML & IL).
      apply Qle_antisym.
      * (* every local number occurs in the serial run *)
        destruct P2 as [-> | (b & a & Hin)]; [exact (proj1 ML)|]. apply in_map_iff in Hin. destruct Hin as (b' & Eb & Hb). injection Eb as -> Eb.
        destruct (All b Hb) as (qb & xb & q1 & c1 & HS & EL & E1). rewrite E1 in Eb. injection Eb as _ <-. specialize (Box b Hb).
        destruct (kernel_cfl_fst _ _ _ _ _ _ _ _ EL) as (l' & ML' & IL'); [cbn [with_bc c_bc local_bc ncells]; lia|].
        eapply is_max_le; [exact ML'|exact ML|lra|]. intros x Hin. exists x. split; [|lra]. apply IL. apply IL' in Hin.
        destruct Hin as (mw & j & Hmw & Hj & Hxc). cbn [with_bc c_bc c_ng c_nw local_bc ncells] in Hmw, Hj.
        exists mw, (j + fst b)%Z. split; [exact Hmw|]. split; [destruct L; cbn [first_iface c_ng with_bc] in *; lia|].
        apply (courant_window C (local_bc (c_bc C) b) (fst b) Hg HC qb xb qbc auxbc HS mw j x); [|exact Hxc].
        cbn [local_bc ncells]. destruct L; cbn [first_iface c_ng with_bc] in *; lia.
      * destruct ML as (M0 & M1 & M2). destruct M2 as [-> | M2]; [exact P0|]. apply IL in M2. destruct M2 as (mw & j & Hmw & Hj & Hxc).
        set (i := Z.max 0 (Z.min (mx - 1) (j - ng))).
        destruct (Cov i ltac:(unfold i; lia)) as (b & Hb & Hi'). specialize (Box b Hb).
        destruct (All b Hb) as (qb & xb & q1 & c1 & HS & EL & E1).
        assert (Hc1 : c1 <= c'). { eapply P1. apply in_map_iff. exists b. split; [|exact Hb]. rewrite E1. reflexivity. }
        destruct (kernel_cfl_fst _ _ _ _ _ _ _ _ EL) as (l' & (_ & N1 & _) & IL'); [cbn [with_bc c_bc local_bc ncells]; lia|].
        assert (c <= c1); [|lra]. apply N1. apply IL'. exists mw, (j - fst b)%Z. cbn [with_bc c_bc c_ng c_nw local_bc ncells].
        split; [exact Hmw|]. split; [destruct L; cbn [first_iface c_ng with_bc] in *; unfold i in *; lia|].
        apply (courant_window C (local_bc (c_bc C) b) (fst b) Hg HC qb xb qbc auxbc HS mw (j - fst b) c).
        -- cbn [local_bc ncells]. destruct L; cbn [first_iface c_ng with_bc] in *; unfold i in *; lia.
        -- replace (j - fst b + fst b)%Z with j by lia. exact Hxc.
  - (* the serial kernel stops *)
    destruct (kernel_stopped _ _ _ _ _ _ EK) as (EL & k & i & Hk & Hi & Hle).
    set (i' := Z.max 0 (Z.min (mx - 1) (i - ng))).
    destruct (Cov i' ltac:(unfold i'; lia)) as (b & Hb & Hi').
    unfold par_step. rewrite par_collect_stopped; [exact I| |].
    + intros b' r Hin. apply in_map_iff in Hin. destruct Hin as (b1 & Eb & Hb1). injection Eb as -> <-.
      destruct (LO b' Hb1) as (qb & xb & HS & ->). destruct (kernel pow undef L (with_bc C (local_bc (c_bc C) b')) qb xb) as [[q1 c1]|]; [right; eauto|left; reflexivity].
    + exists b. apply in_map_iff. exists b. split; [|exact Hb]. f_equal.
      destruct (LO b Hb) as (qb & xb & HS & ->). specialize (Box b Hb).
      rewrite kernel_stops; [reflexivity| |exact EL]. exists k, (i - fst b)%Z. cbn [with_bc c_capa c_bc c_ng local_bc ncells].
      split; [exact Hk|]. split; [unfold i' in *; lia|].
      destruct (HS (i - fst b)%Z) as [_ V]; [cbn [local_bc ncells]; unfold i' in *; lia|].
      rewrite (vec_inj _ _ _ _ _ k V) by (apply HC; exact Hk). replace (i - fst b + fst b)%Z with i by lia. exact Hle.
Qed.
End P.
