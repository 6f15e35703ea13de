(** Proofs about the 1D classic solver, part 5: the reported Courant number. *)
From Verif Require Import Base BCModel BCSpec BCProofs LimiterModel LimiterSpec LimiterProofs
  Classic1DModel Classic1DSpec Classic1DProofs Classic1DProofs2 Classic1DProofs3.

(** [c] is the larger of [b] and the largest element of [l]. *)
Definition is_max (c b : Q) (l : list Q) : Prop :=
  b <= c /\ (forall x, In x l -> x <= c) /\ (c = b \/ In c l).
Lemma is_max_app c b l c' l' : is_max c b l -> is_max c' c l' -> is_max c' b (l ++ l').
Proof.
  intros (A1 & A2 & A3) (B1 & B2 & B3). split; [lra|]. split.
  - intros x Hx. apply in_app_iff in Hx. destruct Hx as [Hx|Hx]; [specialize (A2 x Hx); lra|apply B2; exact Hx].
  - rewrite in_app_iff. destruct B3 as [->|]; [|auto]. destruct A3; auto.
Qed.
Lemma is_max_fold {A} (f : Q -> A -> Q) (g : A -> list Q) : (forall c a, is_max (f c a) c (g a)) ->
  forall l c, is_max (fold_left f l c) c (flat_map g l).
Proof.
  intros H l. induction l as [|a l IH]; intros c; cbn [fold_left flat_map].
  - split; [lra|]. split; [intros x []|auto].
  - eapply is_max_app; [apply H|apply IH].
Qed.
Lemma pymax3_is_max c x y : is_max (pymax3 c x y) c [x; y].
Proof.
  unfold pymax3. destruct (pymax_spec c x) as (A1 & A2 & A3). destruct (pymax_spec (pymax c x) y) as (B1 & B2 & B3).
  split; [lra|]. split.
  - intros z [<-|[<-|[]]]; lra.
  - destruct B3 as [-> | ->]; [|simpl; auto]. destruct A3 as [-> | ->]; simpl; auto.
Qed.
Lemma amax_is_max l : l <> [] -> (forall x, In x l -> x <= amax l) /\ In (amax l) l.
Proof.
  intros H. split; [intros; apply amax_ge; assumption|]. destruct l as [|a l]; [contradiction|]. cbn [amax].
  clear H. revert a. induction l as [|b l IH]; intros a; cbn [fold_left]; [left; reflexivity|].
  destruct (pymax_spec a b) as (_ & _ & [E|E]); rewrite E; [destruct (IH a) as [F|F]|destruct (IH b) as [F|F]].
  - left. exact F.
  - right. right. exact F.
  - right. left. exact F.
  - right. right. exact F.
Qed.
Lemma is_max_amax c l l' : l <> [] -> l' <> [] -> is_max (pymax3 c (amax l) (amax l')) c (l ++ l').
Proof.
  intros H H'. destruct (pymax3_is_max c (amax l) (amax l')) as (A & B & D).
  destruct (amax_is_max l H) as [L1 L2]. destruct (amax_is_max l' H') as [L3 L4].
  split; [exact A|]. split.
  - intros x Hx. apply in_app_iff in Hx. destruct Hx as [Hx|Hx].
    + specialize (L1 x Hx). specialize (B (amax l) ltac:(simpl; auto)). lra.
    + specialize (L3 x Hx). specialize (B (amax l') ltac:(simpl; auto)). lra.
  - rewrite in_app_iff. destruct D as [D|[D|[D|[]]]]; [auto| |]; rewrite <- D; auto.
Qed.
Lemma is_max_le c b l c' b' l' : is_max c b l -> is_max c' b' l' -> b <= b' ->
  (forall x, In x l -> exists y, In y l' /\ x <= y) -> c <= c'.
Proof.
  intros (_ & _ & D) (A' & B' & _) Hb H. destruct D as [->|D]; [lra|].
  destruct (H c D) as (y & Hy & Hle). specialize (B' y Hy). lra.
Qed.

Section S.
Variable pow : Q -> Q -> Q.
Variable undef : Q -> Q -> Z -> Q.
Variable C : settings.
Notation nw := (c_nw C).
Notation ng := (Z.of_nat (c_ng C)).
Notation mx := (ncells (c_bc C)).
Notation dtdx_of := (dtdx_of C).
Notation rps := (rps C).

(** The local Courant numbers at interface j (between cells j and j+1) of wave mw. *)
Definition courant (d : Z -> Q) (R : rpdata) (mw j : Z) : list Q :=
  [d (j + 1)%Z * spd R mw j; - d j * spd R mw j].
Definition first_iface (L : lang) : Z := match L with Python => (ng - 2)%Z | Fortran => (ng - 1)%Z end.

Lemma kernel_cfl_fst L qbc auxbc q' cfl : kernel pow undef L C qbc auxbc = Some (q', cfl) -> (0 <= mx)%Z ->
  exists l, is_max cfl 0 l /\
  forall x, In x l <-> exists mw j, (0 <= mw < Z.of_nat nw)%Z /\ (first_iface L <= j < ng + mx)%Z /\
                       In x (courant (dtdx_of auxbc) (rps qbc auxbc) mw j).
Proof.
  intros HK Hm. destruct L; cbn [kernel first_iface] in *.
  - injection HK as HK. assert (E : py_cfl nw ng mx (dtdx_of auxbc) (spd (rps qbc auxbc)) = cfl).
    { replace cfl with (snd (q', cfl)) by reflexivity. rewrite <- HK. unfold py_kernel. destruct (Z.eqb _ 2); reflexivity. }
    subst cfl. unfold py_cfl. set (js := zrange (ng - 1 - 1) (Z.to_nat (mx + 2))).
    assert (Hjs : js <> []). { unfold js. intros H. apply (f_equal (@length Z)) in H. rewrite zrange_length in H. simpl in H. lia. }
    eexists. split.
    + apply (is_max_fold _ (fun k : nat => map (fun j => dtdx_of auxbc (j + 1)%Z * spd (rps qbc auxbc) (Z.of_nat k) j) js ++
                                  map (fun j => - dtdx_of auxbc j * spd (rps qbc auxbc) (Z.of_nat k) j) js)).
      intros c k. apply is_max_amax; intros H; apply map_eq_nil in H; contradiction.
    + intros x. rewrite in_flat_map. split.
      * intros (k & Hk & Hx). apply in_seq in Hk. apply in_app_iff in Hx. destruct Hx as [Hx|Hx]; apply in_map_iff in Hx;
        destruct Hx as (j & <- & Hj); apply zrange_in in Hj; exists (Z.of_nat k), j; (split; [lia|split; [lia|simpl; auto]]).
      * intros (mw & j & Hmw & Hj & Hx). exists (Z.to_nat mw). split; [apply in_seq; lia|]. rewrite Z2Nat.id by lia.
        apply in_app_iff. assert (Hj' : In j js) by (apply zrange_in; lia).
        destruct Hx as [<-|[<-|[]]]; [left|right]; [apply (in_map (fun j => dtdx_of auxbc (j + 1)%Z * spd (rps qbc auxbc) mw j))|apply (in_map (fun j => - dtdx_of auxbc j * spd (rps qbc auxbc) mw j))]; exact Hj'.
  - destruct (f_dtdx ng mx (c_dt C) (c_dx C) (option_map (fun k i => auxbc k (i + ng - 1)%Z) (c_capa C))) as [d|] eqn:Ed; [|discriminate].
    destruct (f_kernel _ _ _ _ _ _ _ _ _ _) as [qf cf] eqn:Ek. injection HK as HK1 HK2. subst q' cf.
    set (RF := solve_rps (c_rp C) (c_neq C) (c_naux C) (-1) (fun m i => qbc m (i + ng - 1)%Z) (fun m i => auxbc m (i + ng - 1)%Z)) in *.
    assert (E : f_cfl nw mx d (spd RF) = cfl).
    { replace cfl with (snd (qf, cfl)) by reflexivity. rewrite <- Ek. unfold f_kernel. destruct (Z.eqb _ 1); reflexivity. }
    assert (Hd : forall j, d j = dtdx_of auxbc (j + ng - 1)%Z).
    { intros j. unfold Classic1DProofs2.dtdx_of. unfold f_dtdx in Ed. destruct (c_capa C) as [kc|]; cbn [option_map py_dtdx] in *.
      - destruct (forallb _ _); [|discriminate]. injection Ed as <-. reflexivity.
      - injection Ed as <-. reflexivity. }
    assert (HR : forall mw j, spd RF mw j = spd (rps qbc auxbc) mw (j + ng - 2)%Z).
    { intros mw j. unfold RF. cbn [spd solve_rps Classic1DProofs2.rps].
      f_equal. f_equal; apply vec_ext; intros; f_equal; lia. }
    subst cfl. unfold f_cfl. eexists. split.
    + apply (is_max_fold _ (fun k : nat => flat_map (fun i => [d i * spd RF (Z.of_nat k) i; - d (i - 1)%Z * spd RF (Z.of_nat k) i]) (zrange 1 (Z.to_nat (mx + 1))))).
      intros c k. apply is_max_fold. intros c' i. apply pymax3_is_max.
    + intros x. rewrite in_flat_map. split.
      * intros (k & Hk & Hx). apply in_seq in Hk. apply in_flat_map in Hx. destruct Hx as (i & Hi & Hx). apply zrange_in in Hi.
        exists (Z.of_nat k), (i + ng - 2)%Z. split; [lia|]. split; [lia|]. rewrite !Hd, HR in Hx.
        unfold courant. replace (i + ng - 2 + 1)%Z with (i + ng - 1)%Z by lia.
        replace (i - 1 + ng - 1)%Z with (i + ng - 2)%Z in Hx by lia. exact Hx.
      * intros (mw & j & Hmw & Hj & Hx). exists (Z.to_nat mw). split; [apply in_seq; lia|]. rewrite Z2Nat.id by lia.
        apply in_flat_map. exists (j - ng + 2)%Z. split; [apply zrange_in; lia|]. rewrite !Hd, HR.
        replace (j - ng + 2 + ng - 1)%Z with (j + 1)%Z by lia. replace (j - ng + 2 - 1 + ng - 1)%Z with j by lia.
        replace (j - ng + 2 + ng - 2)%Z with j by lia. exact Hx.
Qed.

Lemma cfl_fortran_le qbc auxbc qp cp qf cf : (0 <= mx)%Z ->
  kernel pow undef Python C qbc auxbc = Some (qp, cp) -> kernel pow undef Fortran C qbc auxbc = Some (qf, cf) -> cf <= cp.
Proof.
  intros Hm HP HF. destruct (kernel_cfl_fst _ _ _ _ _ HP Hm) as (lp & P1 & P2). destruct (kernel_cfl_fst _ _ _ _ _ HF Hm) as (lf & F1 & F2).
  eapply is_max_le; [exact F1|exact P1|lra|]. intros x Hx. exists x. split; [|lra].
  apply P2. apply F2 in Hx. destruct Hx as (mw & j & A & B & D). exists mw, j. cbn [first_iface] in *. split; [exact A|split; [lia|exact D]].
Qed.
Lemma cfl_agree qbc auxbc qp cp qf cf : (0 <= mx)%Z ->
  kernel pow undef Python C qbc auxbc = Some (qp, cp) -> kernel pow undef Fortran C qbc auxbc = Some (qf, cf) ->
  (forall mw x, (0 <= mw < Z.of_nat nw)%Z -> In x (courant (dtdx_of auxbc) (rps qbc auxbc) mw (ng - 2)) ->
     exists j, (ng - 1 <= j < ng + mx)%Z /\ In x (courant (dtdx_of auxbc) (rps qbc auxbc) mw j)) ->
  cp == cf.
Proof.
  intros Hm HP HF HG. apply Qle_antisym; [|eapply cfl_fortran_le; eassumption].
  destruct (kernel_cfl_fst _ _ _ _ _ HP Hm) as (lp & P1 & P2). destruct (kernel_cfl_fst _ _ _ _ _ HF Hm) as (lf & F1 & F2).
  eapply is_max_le; [exact P1|exact F1|lra|]. intros x Hx. exists x. split; [|lra].
  apply F2. apply P2 in Hx. destruct Hx as (mw & j & A & B & D). cbn [first_iface] in *.
  destruct (Z.eq_dec j (ng - 2)) as [->|Hne].
  - destruct (HG mw x A D) as (j' & Hj' & Hx'). exists mw, j'. split; [exact A|split; [lia|exact Hx']].
  - exists mw, j. split; [exact A|split; [lia|exact D]].
Qed.
End S.
