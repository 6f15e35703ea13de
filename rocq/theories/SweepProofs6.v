(** Proofs about the multi-dimensional classic solvers, part 6: the Courant number. *)
From Verif Require Import Base BCModel BCSpec BCProofs LimiterModel LimiterProofs Classic1DModel Classic1DSpec
  Classic1DProofs Classic1DProofs2 SweepModel SweepSpec SweepProofs SweepProofs2 SweepProofs4.

Lemma pymax3_le a b c : a <= pymax3 a b c /\ b <= pymax3 a b c /\ c <= pymax3 a b c /\ (pymax3 a b c = a \/ pymax3 a b c = b \/ pymax3 a b c = c).
Proof.
  unfold pymax3. destruct (pymax_spec a b) as (A1 & A2 & A3). destruct (pymax_spec (pymax a b) c) as (B1 & B2 & B3).
  repeat split; try lra. destruct B3 as [-> | ->]; [destruct A3 as [-> | ->]; auto|auto].
Qed.

(** A fold that takes maxima: it ends with the start value or one of the candidates and is above all of them. *)
Definition from_max {A} (P : A -> Q -> Prop) (l : list A) (c r : Q) : Prop :=
  c <= r /\ (forall x v, In x l -> P x v -> v <= r) /\ (r = c \/ exists x, In x l /\ P x r).
Lemma fold_max {A} (P : A -> Q -> Prop) (f : Q -> A -> Q) (l : list A) :
  (forall c x, In x l -> c <= f c x /\ (forall v, P x v -> v <= f c x) /\ (f c x = c \/ P x (f c x))) ->
  forall c, from_max P l c (fold_left f l c).
Proof.
  induction l as [|x l IH]; intros H c; cbn [fold_left].
  - split; [lra|]. split; [intros x v []|auto].
  - destruct (H c x (or_introl eq_refl)) as (A1 & A2 & A3). destruct (IH (fun c y Hy => H c y (or_intror Hy)) (f c x)) as (B1 & B2 & B3).
    split; [lra|]. split.
    + intros y v [->|Hy] Hv; [specialize (A2 v Hv); lra|exact (B2 y v Hy Hv)].
    + destruct B3 as [-> | (y & Hy & Hv)]; [|right; exists y; split; [right; exact Hy|exact Hv]].
      destruct A3 as [-> | A3]; [left; reflexivity|right; exists x; split; [left; reflexivity|exact A3]].
Qed.

Lemma f_cfl_spec nw mx d s : (0 <= mx + 1)%Z ->
  0 <= f_cfl nw mx d s /\
  (forall p i, (0 <= p < Z.of_nat nw)%Z -> (1 <= i <= mx + 1)%Z -> d i * s p i <= f_cfl nw mx d s /\ - d (i - 1)%Z * s p i <= f_cfl nw mx d s) /\
  (f_cfl nw mx d s = 0 \/ exists p i, (0 <= p < Z.of_nat nw)%Z /\ (1 <= i <= mx + 1)%Z /\
     (f_cfl nw mx d s = d i * s p i \/ f_cfl nw mx d s = - d (i - 1)%Z * s p i)).
Proof.
  intros Hm.
  assert (IN : forall k c, from_max (fun i v => v = d i * s (Z.of_nat k) i \/ v = - d (i - 1)%Z * s (Z.of_nat k) i) (zrange 1 (Z.to_nat (mx + 1))) c
     (fold_left (fun c i => pymax3 c (d i * s (Z.of_nat k) i) (- d (i - 1)%Z * s (Z.of_nat k) i)) (zrange 1 (Z.to_nat (mx + 1))) c)).
  { intros k. apply fold_max. intros c i _. destruct (pymax3_le c (d i * s (Z.of_nat k) i) (- d (i - 1)%Z * s (Z.of_nat k) i)) as (A & B & C & E).
    split; [exact A|]. split; [intros v [-> | ->]; assumption|]. destruct E as [E | [E | E]]; auto. }
  destruct (fold_max (fun k v => exists i, In i (zrange 1 (Z.to_nat (mx + 1))) /\ (v = d i * s (Z.of_nat k) i \/ v = - d (i - 1)%Z * s (Z.of_nat k) i))
     (fun c k => fold_left (fun c i => pymax3 c (d i * s (Z.of_nat k) i) (- d (i - 1)%Z * s (Z.of_nat k) i)) (zrange 1 (Z.to_nat (mx + 1))) c) (seq 0 nw)) with (c := 0) as (A & B & C).
  - intros c k _. destruct (IN k c) as (A & B & C). split; [exact A|]. split; [intros v (i & Hi & Hv); exact (B i v Hi Hv)|].
    destruct C as [C | C]; [left; exact C|right; exact C].
  - fold (f_cfl nw mx d s) in *. split; [exact A|]. split.
    + intros p i Hp Hi. assert (Hk : In (Z.to_nat p) (seq 0 nw)) by (apply in_seq; lia).
      assert (Hi' : In i (zrange 1 (Z.to_nat (mx + 1)))) by (apply zrange_in; lia).
      pose proof (fun v H => B (Z.to_nat p) v Hk (ex_intro _ i (conj Hi' H))) as B'. cbv beta in B'. rewrite Z2Nat.id in B' by lia. split; apply B'; auto.
    + destruct C as [C | (k & Hk & i & Hi & C)]; [left; exact C|]. right. apply in_seq in Hk. apply zrange_in in Hi. exists (Z.of_nat k), i. repeat split; try lia. exact C.
Qed.

Section CFL.
Variable undef : Q -> Q -> Z -> Q.
Variable S : msettings.
Let ns := map ncells (n_bcs S).
Let g := Z.of_nat (n_ng S).
Let mxd d := nth d ns 0%Z.
Hypothesis Hg : (1 <= n_ng S)%nat.
Hypothesis Hn : Forall (fun n => 0 <= n)%Z ns.

Lemma mxd_nonneg d : (d < length (n_bcs S))%nat -> (0 <= mxd d)%Z.
Proof. intros Hd. unfold mxd. rewrite Forall_forall in Hn. apply Hn. apply nth_In. unfold ns. rewrite map_length. exact Hd. Qed.

Lemma line_flux_cfl d b auxbc x : cfl1d (line_flux undef S d b auxbc x) =
  f_cfl (n_nw S) (mxd d) (line_dtdx S d (slice (n_ng S) d b auxbc)) (spd (solve_rps (n_rpn S d) (n_neq S) (n_naux S) (-1) (slice (n_ng S) d b x) (slice (n_ng S) d b auxbc))).
Proof. reflexivity. Qed.

Lemma slice_vec n d b a i : (d < length b)%nat -> vec n (slice (n_ng S) d b a) i = cell_vec n a (put d (i + g - 1)%Z b).
Proof. reflexivity. Qed.

(** The largest Courant number over the slices of a sweep, started from c0 *)
Lemma lines_cfl d auxbc x c0 : (d < length (n_bcs S))%nat ->
  let c := fold_left (fun c b => pymax c (cfl1d (line_flux undef S d b auxbc x))) (lines d (n_ng S) (layers S) ns) c0 in
  c0 <= c /\
  (forall ix p v, face S d ix -> (0 <= p < Z.of_nat (n_nw S))%Z -> crossed S d auxbc x ix p v -> v <= c) /\
  (c = c0 \/ c = 0 \/ exists ix p, face S d ix /\ (0 <= p < Z.of_nat (n_nw S))%Z /\ crossed S d auxbc x ix p c).
Proof.
  intros Hd c. pose proof (layers_nonneg S) as Hl. unfold c. clear c.
  pose proof (mxd_nonneg d Hd) as Hmx.
  assert (LB : forall b, In b (lines d (n_ng S) (layers S) ns) -> length b = length (n_bcs S) /\ get d b = 0%Z /\
     forall i, (1 <= i <= mxd d + 1)%Z -> face S d (put d (i + g - 1)%Z b)).
  { intros b Hb. apply lines_in in Hb; [|exact Hl|exact Hn]. destruct Hb as [HL Hb]. unfold ns in HL. rewrite map_length in HL.
    assert (HLn : length ns = length (n_bcs S)) by (unfold ns; apply map_length).
    split; [exact HL|]. split; [pose proof (Hb d ltac:(lia)) as Z; rewrite Nat.eqb_refl in Z; exact Z|].
    intros i Hi. split; [rewrite put_length; exact HL|]. intros j Hj. specialize (Hb j ltac:(lia)). cbv zeta.
    destruct (Nat.eqb_spec j d) as [E1|Hne]; [subst j; rewrite get_put by lia; fold ns; fold (mxd d); fold g; lia|].
    rewrite get_put_other by lia. exact Hb. }
  assert (FB : forall ix, face S d ix -> In (put d 0%Z ix) (lines d (n_ng S) (layers S) ns) /\ (1 <= get d ix - g + 1 <= mxd d + 1)%Z).
  { intros ix [HL HF]. split.
    - apply lines_in; [exact Hl|exact Hn|]. rewrite put_length. assert (HLn : length ns = length (n_bcs S)) by (unfold ns; apply map_length).
      split; [lia|]. intros j Hj. specialize (HF j ltac:(lia)). cbv zeta in HF. destruct (Nat.eqb_spec j d) as [E1|Hne]; [subst j; apply get_put; lia|].
      rewrite get_put_other by lia. exact HF.
    - specialize (HF d Hd). cbv zeta in HF. rewrite Nat.eqb_refl in HF. fold ns in HF. fold (mxd d) in HF. fold g in HF. lia. }
  assert (AT : forall b i p, length b = length (n_bcs S) ->
     line_dtdx S d (slice (n_ng S) d b auxbc) i = cell_ratio S d auxbc (put d (i + g - 1)%Z b) /\
     line_dtdx S d (slice (n_ng S) d b auxbc) (i - 1)%Z = cell_ratio S d auxbc (lower d (put d (i + g - 1)%Z b)) /\
     spd (solve_rps (n_rpn S d) (n_neq S) (n_naux S) (-1) (slice (n_ng S) d b x) (slice (n_ng S) d b auxbc)) p i = face_speed S d auxbc x (put d (i + g - 1)%Z b) p).
  { intros b i p HL. unfold lower. rewrite get_put by lia. rewrite put_put.
    unfold line_dtdx, cell_ratio, slice. fold g. split; [destruct (n_capa S); reflexivity|].
    split; [destruct (n_capa S); [|reflexivity]; replace (i - 1 + g - 1)%Z with (i + g - 1 - 1)%Z by lia; reflexivity|]. unfold solve_rps, face_speed. cbn [spd]. unfold lower. rewrite get_put by lia. rewrite put_put.
    unfold cell_vec, vec. fold g. replace (i + -1 + g - 1)%Z with (i + g - 1 - 1)%Z by lia. replace (i + -1 + 1 + g - 1)%Z with (i + g - 1)%Z by lia. reflexivity. }
  pose (P := fun b v => v = 0 \/ exists i p, (1 <= i <= mxd d + 1)%Z /\ (0 <= p < Z.of_nat (n_nw S))%Z /\ crossed S d auxbc x (put d (i + g - 1)%Z b) p v).
  destruct (fold_max P (fun c b => pymax c (cfl1d (line_flux undef S d b auxbc x))) (lines d (n_ng S) (layers S) ns)) with (c := c0) as (A & B & C).
  - intros c1 b Hb. destruct (LB b Hb) as (HL & _ & _). destruct (pymax_spec c1 (cfl1d (line_flux undef S d b auxbc x))) as (A1 & A2 & A3).
    rewrite line_flux_cfl in *.
    destruct (f_cfl_spec (n_nw S) (mxd d) (line_dtdx S d (slice (n_ng S) d b auxbc))
       (spd (solve_rps (n_rpn S d) (n_neq S) (n_naux S) (-1) (slice (n_ng S) d b x) (slice (n_ng S) d b auxbc))) ltac:(lia)) as (B1 & B2 & B3).
    set (K := f_cfl _ _ _ _) in *.
    split; [exact A1|]. split.
    + intros v [-> | (i & p & Hi & Hp & Hv)]; [lra|]. destruct (B2 p i Hp Hi) as [C1 C2]. destruct (AT b i p HL) as (T1 & T2 & T3). rewrite T1, T3 in C1. rewrite T2, T3 in C2.
      destruct Hv as [-> | ->]; lra.
    + destruct A3 as [-> | ->]; [left; reflexivity|]. destruct B3 as [B3 | (p & i & Hp & Hi & B3)].
      * right. left. exact B3.
      * right. right. exists i, p. split; [exact Hi|]. split; [exact Hp|]. destruct (AT b i p HL) as (T1 & T2 & T3). unfold crossed. rewrite <- T1, <- T2, <- T3. exact B3.
  - split; [exact A|]. split.
    + intros ix p v HF Hp Hv. destruct (FB ix HF) as [Hb Hi]. apply (B _ v Hb). right. exists (get d ix - g + 1)%Z, p. split; [exact Hi|]. split; [exact Hp|].
      rewrite put_put. replace (get d ix - g + 1 + g - 1)%Z with (get d ix) by lia. rewrite put_get. exact Hv.
    + destruct C as [C | (b & Hb & [C | (i & p & Hi & Hp & C)])]; [left; exact C|right; left; exact C|]. right. right. exists (put d (i + g - 1)%Z b), p.
      split; [apply (LB b Hb); exact Hi|]. split; [exact Hp|exact C].
Qed.
(** The Courant number of one sweep. *)
Lemma sweep_cfl d alias auxbc x : (d < length (n_bcs S))%nat ->
  let c := snd (sweep undef S (layers S) alias d auxbc x x) in
  0 <= c /\
  (forall ix p v, face S d ix -> (0 <= p < Z.of_nat (n_nw S))%Z -> crossed S d auxbc x ix p v -> v <= c) /\
  (c = 0 \/ exists ix p, face S d ix /\ (0 <= p < Z.of_nat (n_nw S))%Z /\ crossed S d auxbc x ix p c).
Proof.
  intros Hd c. pose proof (layers_nonneg S) as Hl. destruct (sweep_at undef S Hg Hn (layers S) alias d auxbc x Hl Hd) as [_ E]. unfold c. rewrite E.
  destruct (lines_cfl d auxbc x 0 Hd) as (A & B & C). split; [exact A|]. split; [exact B|]. destruct C as [C|[C|C]]; [left; exact C|left; exact C|right; exact C].
Qed.

Lemma more_sweeps_cfl auxbc qbc : forall k d st, (k + d <= length (n_bcs S))%nat -> fst st = before undef S auxbc qbc d -> (0 < d)%nat ->
  let c := snd (more_sweeps undef S k d auxbc st) in
  snd st <= c /\
  (forall e ix p v, (d <= e < d + k)%nat -> face S e ix -> (0 <= p < Z.of_nat (n_nw S))%Z -> crossed S e auxbc (before undef S auxbc qbc e) ix p v -> v <= c) /\
  (c = snd st \/ c = 0 \/ exists e ix p, (d <= e < d + k)%nat /\ face S e ix /\ (0 <= p < Z.of_nat (n_nw S))%Z /\ crossed S e auxbc (before undef S auxbc qbc e) ix p c).
Proof.
  induction k as [|k IH]; intros d st Hk Hb Hd; cbn [more_sweeps]; cbv zeta.
  - split; [lra|]. split; [intros; lia|auto].
  - set (r := sweep undef S (layers S) true d auxbc (fst st) (fst st)).
    destruct (sweep_cfl d true auxbc (fst st) ltac:(lia)) as (A1 & A2 & A3). fold r in A1, A2, A3. rewrite Hb in A2, A3.
    destruct (pymax_spec (snd st) (snd r)) as (P1 & P2 & P3).
    specialize (IH (Datatypes.S d) (fst r, pymax (snd st) (snd r)) ltac:(lia)). cbn [fst snd] in IH.
    destruct IH as (B1 & B2 & B3).
    + unfold r. rewrite Hb. cbn [before]. replace (Nat.ltb 0 d) with true by (symmetry; apply Nat.ltb_lt; lia). reflexivity.
    + lia.
    + set (c := snd (more_sweeps _ _ _ _ _ _)) in *. split; [lra|]. split.
      * intros e ix p v He HF Hp Hv. destruct (Nat.eq_dec e d) as [->|Hne]; [specialize (A2 ix p v HF Hp Hv); lra|]. apply (B2 e ix p v); auto; lia.
      * destruct B3 as [B3 | [B3 | (e & ix & p & He & B3)]]; [|auto|right; right; exists e, ix, p; split; [lia|exact B3]].
        rewrite B3. destruct P3 as [-> | ->]; [auto|]. right. destruct A3 as [A3 | (ix & p & A3)]; [auto|]. right. exists d, ix, p. split; [lia|exact A3].
Qed.

Theorem split_cfl auxbc qbc : (1 <= length (n_bcs S))%nat ->
  let c := snd (split_sweeps undef S auxbc qbc) in
  0 <= c /\
  (forall d ix p v, (d < length (n_bcs S))%nat -> face S d ix -> (0 <= p < Z.of_nat (n_nw S))%Z -> crossed S d auxbc (before undef S auxbc qbc d) ix p v -> v <= c) /\
  (c = 0 \/ exists d ix p, (d < length (n_bcs S))%nat /\ face S d ix /\ (0 <= p < Z.of_nat (n_nw S))%Z /\ crossed S d auxbc (before undef S auxbc qbc d) ix p c).
Proof.
  intros HL. unfold split_sweeps. set (r := sweep undef S (layers S) false 0 auxbc qbc qbc).
  destruct (sweep_cfl 0 false auxbc qbc ltac:(lia)) as (A1 & A2 & A3). fold r in A1, A2, A3.
  destruct (more_sweeps_cfl auxbc qbc (length (n_bcs S) - 1) 1 r ltac:(lia) eq_refl ltac:(lia)) as (B1 & B2 & B3).
  set (c := snd (more_sweeps _ _ _ _ _ _)) in *. cbv zeta. split; [lra|]. split.
  - intros d ix p v Hd HF Hp Hv. destruct (Nat.eq_dec d 0) as [E|Hne]; [subst d; specialize (A2 ix p v HF Hp Hv); lra|]. apply (B2 d ix p v); auto; lia.
  - destruct B3 as [B3 | [B3 | (e & ix & p & He & B3)]]; [|auto|right; exists e, ix, p; split; [lia|exact B3]].
    rewrite B3. destruct A3 as [A3 | (ix & p & A3)]; [auto|]. right. exists 0%nat, ix, p. split; [lia|exact A3].
Qed.

(** A sweep with a solver that produces nothing changes nothing. *)
Lemma sweep_idle d alias auxbc x m ix : (d < length (n_bcs S))%nat -> (0 <= m < Z.of_nat (n_neq S))%Z ->
  (forall ql qr al ar m, o_am (n_rpn S d ql qr al ar) m == 0 /\ o_ap (n_rpn S d ql qr al ar) m == 0 /\ forall mw, o_wave (n_rpn S d ql qr al ar) m mw == 0) ->
  fst (sweep undef S (layers S) alias d auxbc x x) m ix == x m ix.
Proof.
  intros Hd Hm HS. destruct (sweep_at undef S Hg Hn (layers S) alias d auxbc x (layers_nonneg S) Hd) as [A _]. rewrite A by exact Hm.
  unfold sweep_value. destruct (swept S (layers S) d ix) eqn:Es; [|reflexivity].
  unfold swept in Es. apply andb_true_iff in Es. destruct Es as [_ Es]. unfold in_slice in Es. fold ns in Es. fold (mxd d) in Es.
  destruct (flux2_still (n_neq S) (n_nw S) (n_naux S) g (mxd d) (n_fwave S) (n_order S) (n_mthlim S) undef (n_rpn S d) no_rpt
      (slice (n_ng S) d (put d 0 ix) x) (slice (n_ng S) d (put d 0 ix) auxbc) (slice (n_ng S) d (put d 0 ix) auxbc) (slice (n_ng S) d (put d 0 ix) auxbc)
      (line_dtdx S d (slice (n_ng S) d (put d 0 ix) auxbc)) m (get d ix - g + 1)) as (E1 & E2 & E3).
  - exact Hm.
  - fold g in Es. lia.
  - intros e He. cbn [solve_rps amdq apdq wave]. destruct (HS (vec (n_neq S) (slice (n_ng S) d (put d 0 ix) x) (e + -1)) (vec (n_neq S) (slice (n_ng S) d (put d 0 ix) x) (e + -1 + 1))
      (vec (n_naux S) (slice (n_ng S) d (put d 0 ix) auxbc) (e + -1)) (vec (n_naux S) (slice (n_ng S) d (put d 0 ix) auxbc) (e + -1 + 1)) m) as (A1 & A2 & A3). auto.
  - fold g. unfold line_change, line_flux. cbv zeta. fold ns. fold (mxd d). fold g. destruct (n_capa S); rewrite E1, E2, E3; [unfold Qdiv|]; ring.
Qed.
End CFL.
