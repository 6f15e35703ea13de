(** Proofs about the unsplit three-dimensional solver, part 2: conservation. *)
From Verif Require Import Base BCModel BCSpec BCProofs LimiterModel LimiterProofs Classic1DModel Classic1DSpec
  Classic1DProofs Classic1DProofs2 SweepModel SweepSpec SweepProofs SweepProofs2 SweepProofs3 SweepProofs4 UnsplitProofs2 Unsplit3Model Unsplit3Spec Unsplit3Proofs.

(** What the described schemes read *)
Lemma described_digits order trans : described order trans ->
  (digit3 trans = 2%Z -> order <> 1%Z) /\ ((2 <= digit3 trans)%Z -> digit3 trans = 2%Z) /\ (digit4 trans = 2%Z -> digit3 trans = 2%Z) /\
  ((0 < digit4 trans)%Z -> digit4 trans = 1%Z \/ digit4 trans = 2%Z).
Proof.
  intros [H|[H Ho]]; cbn [In] in H; repeat (destruct H as [<-|H]; [cbn; repeat split; intros; try assumption; try discriminate; try lia|]); destruct H.
Qed.

(** ** The transverse fluxes of slices that look the same are the same *)
Section G.
Variables (neq nw naux : nat) (ng mx : Z).
Variable fwave : bool.
Variables (order trans : Z).
Variable mthlim : Z -> Z.
Variable undef : Q -> Q -> Z -> Q.
Variable rp : rpsolver.
Variable rpt : rpt3solver.
Variable rptt : rptt3solver.
Variables stale stale' : leftovers.
Hypothesis HD : described order trans.
Variables (q q' : Z -> Z -> Q) (d d' : Z -> Q) (dy dz : Q) (A A' : list (Z -> Z -> Q)).
Notation fns f := (f neq nw naux mx fwave order trans mthlim undef rp rpt) (only parsing).
Hypothesis Hq : forall k, (-1 <= k <= mx + 2)%Z -> vec neq q k = vec neq q' k.
Hypothesis HA : forall k, (-1 <= k <= mx + 2)%Z -> map (fun a => vec naux a k) A = map (fun a => vec naux a k) A'.
Hypothesis Hd : forall k, (-1 <= k <= mx + 2)%Z -> d k = d' k.

Lemma aux22_same k : (-1 <= k <= mx + 2)%Z -> vec naux (aux22 A) k = vec naux (aux22 A') k.
Proof.
  intros Hk. specialize (HA k Hk). unfold aux22.
  pose proof (map_nth (fun a => vec naux a k) A (fun _ _ => 0) 4) as E. pose proof (map_nth (fun a => vec naux a k) A' (fun _ _ => 0) 4) as E'.
  cbv beta in E, E'. rewrite <- E, <- E', HA. reflexivity.
Qed.
Notation R q A := (rp_sol neq naux rp q A).
Lemma near3 r e : (r <= 2)%Z -> (1 <= e <= mx + 1)%Z -> near neq naux r q d (aux22 A) e q' d' (aux22 A') e.
Proof. intros Hr He k Hk. split; [apply Hq; lia|]. split; [apply aux22_same; lia|apply Hd; lia]. Qed.
Lemma cqxx3_same m e : order <> 1%Z -> (0 <= m < Z.of_nat neq)%Z -> (1 <= e <= mx + 1)%Z ->
  cqxx3 neq nw naux mx fwave order mthlim undef rp stale q d A m e = cqxx3 neq nw naux mx fwave order mthlim undef rp stale' q' d' A' m e.
Proof.
  intros Ho Hm He. unfold cqxx3. destruct (Z.eqb_spec order 1) as [E|_]; [contradiction|]. f_equal.
  pose proof (near3 (reach nw order mthlim) e (reach_2 nw order mthlim) He) as H.
  destruct (near_R neq naux rp q q' (aux22 A) (aux22 A') d d' e e (near3 1 e ltac:(lia) He)) as (_ & S1 & _).
  unfold f_cqxx. rewrite (Hd e), (Hd (e - 1)%Z) by lia. apply zsum_ext. intros mw Hmw. unfold rp_sol. rewrite S1.
  pose proof (near_lim neq nw naux mx order mthlim undef rp q q' (aux22 A) (aux22 A') d d' m mw e e Hm Ho H He He) as L. unfold lim_waves in L. rewrite L. reflexivity.
Qed.
Lemma split3_same icoor imp dq dq' i : (1 <= i <= mx + 1)%Z -> (forall m, (0 <= m < Z.of_nat neq)%Z -> dq m i = dq' m i) ->
  split3 neq naux rpt q A icoor imp dq i = split3 neq naux rpt q' A' icoor imp dq' i.
Proof.
  intros Hi H. unfold split3. rewrite (Hq i), (Hq (i - 1)%Z), (HA i), (HA (i - 1)%Z) by lia. f_equal. apply vec_ext. exact H.
Qed.
Lemma incr_same icoor imp up m i : (1 <= i <= mx + 1)%Z ->
  incr neq naux rp rpt q A icoor imp up m i = incr neq naux rp rpt q' A' icoor imp up m i.
Proof.
  intros Hi. unfold incr. destruct (near_R neq naux rp q q' (aux22 A) (aux22 A') d d' i i (near3 1 i ltac:(lia) Hi)) as (_ & _ & M & P).
  rewrite (split3_same icoor imp _ (if Z.eqb imp 1 then amdq (R q' A') else apdq (R q' A'))); [reflexivity|exact Hi|].
  intros c _. destruct (Z.eqb imp 1); [apply M|apply P].
Qed.
Lemma corr_same icoor imp up m i : digit3 trans = 2%Z -> (1 <= i <= mx + 1)%Z ->
  corr neq nw naux mx fwave order trans mthlim undef rp rpt stale q d A icoor imp up m i =
  corr neq nw naux mx fwave order trans mthlim undef rp rpt stale' q' d' A' icoor imp up m i.
Proof.
  intros D3 Hi. unfold corr. rewrite D3. change (2 =? 2)%Z with true. cbv iota. destruct (described_digits order trans HD) as (Ho & _). specialize (Ho D3).
  rewrite (split3_same icoor _ _ (cqxx3 neq nw naux mx fwave order mthlim undef rp stale' q' d' A')); [reflexivity|exact Hi|].
  intros c Hc. apply cqxx3_same; assumption.
Qed.
Lemma both_same icoor imp top m i : (0 < digit4 trans)%Z -> (1 <= i <= mx + 1)%Z ->
  both neq nw naux mx fwave order trans mthlim undef rp rpt stale q d A icoor imp top m i =
  both neq nw naux mx fwave order trans mthlim undef rp rpt stale' q' d' A' icoor imp top m i.
Proof.
  intros D4 Hi. unfold both. cbv zeta. rewrite incr_same by exact Hi. destruct (described_digits order trans HD) as (_ & _ & T & U).
  destruct (U D4) as [E|E]; rewrite E; [reflexivity|]. change (2 =? 2)%Z with true. cbv iota. rewrite corr_same by auto. reflexivity.
Qed.
Lemma double_same icoor imp top up m i : (0 < digit4 trans)%Z -> (1 <= i <= mx + 1)%Z ->
  double neq nw naux mx fwave order trans mthlim undef rp rpt rptt stale q d A icoor imp top up m i =
  double neq nw naux mx fwave order trans mthlim undef rp rpt rptt stale' q' d' A' icoor imp top up m i.
Proof.
  intros D4 Hi. unfold double. rewrite (Hq i), (Hq (i - 1)%Z), (HA i), (HA (i - 1)%Z) by lia.
  rewrite (vec_ext neq (both neq nw naux mx fwave order trans mthlim undef rp rpt stale q d A icoor imp top)
    (both neq nw naux mx fwave order trans mthlim undef rp rpt stale' q' d' A' icoor imp top) i i); [reflexivity|].
  intros c _. apply both_same; assumption.
Qed.
Lemma part3_same icoor imp dtc up sl m i : (1 <= i <= mx + 1)%Z ->
  part3 neq nw naux mx fwave order trans mthlim undef rp rpt rptt stale q d A icoor imp dtc up sl m i =
  part3 neq nw naux mx fwave order trans mthlim undef rp rpt rptt stale' q' d' A' icoor imp dtc up sl m i.
Proof.
  intros Hi. unfold part3. cbv zeta. rewrite incr_same by exact Hi. destruct (described_digits order trans HD) as (_ & W & _).
  assert (EC : (if Z.leb 2 (digit3 trans) then (if Z.eqb imp 1 then - corr neq nw naux mx fwave order trans mthlim undef rp rpt stale q d A icoor imp up m i else corr neq nw naux mx fwave order trans mthlim undef rp rpt stale q d A icoor imp up m i) else 0) =
    (if Z.leb 2 (digit3 trans) then (if Z.eqb imp 1 then - corr neq nw naux mx fwave order trans mthlim undef rp rpt stale' q' d' A' icoor imp up m i else corr neq nw naux mx fwave order trans mthlim undef rp rpt stale' q' d' A' icoor imp up m i) else 0)).
  { destruct (Z.leb_spec 2 (digit3 trans)) as [D|_]; [|reflexivity]. rewrite corr_same by auto. reflexivity. }
  rewrite EC. destruct (Z.ltb_spec 0 (digit4 trans)) as [D|_]; [|reflexivity]. rewrite !double_same by assumption. reflexivity.
Qed.
Notation F st q d A := (flux3 neq nw naux ng mx fwave order trans mthlim undef rp rpt rptt st q d dy dz A).
Lemma rows_gadd3 up sl m i : (1 <= i <= mx)%Z -> g3add (F stale q d A) up sl m i = g3add (F stale' q' d' A') up sl m i /\ h3add (F stale q d A) up sl m i = h3add (F stale' q' d' A') up sl m i.
Proof.
  intros Hi. unfold flux3. destruct (Z.leb (digit3 trans) 0); [auto|]. cbn [g3add h3add]. unfold add3. rewrite !in_slice_true by lia.
  rewrite !(Hd i) by lia. rewrite !part3_same by lia. auto.
Qed.
End G.

(** Sums over one period *)
Lemma zsum_shift_period n (T : Z -> Q) a : (1 <= n)%Z -> (-1 <= a <= 1)%Z -> T (-1)%Z == T (n - 1)%Z -> T n == T 0%Z ->
  zsum 0 (Z.to_nat n) (fun j => T (j - a)%Z) == zsum 0 (Z.to_nat n) T.
Proof.
  intros Hn Ha E1 E2. assert (C : (a = -1 \/ a = 0 \/ a = 1)%Z) by lia. destruct C as [Ea|[Ea|Ea]]; subst a.
  - assert (K : zsum 0 (Z.to_nat n) (fun j => T (j - -1)%Z) - zsum 0 (Z.to_nat n) T == 0).
    { rewrite <- zsum_minus. rewrite (zsum_eq 0 _ _ (fun j => T (j + 1)%Z - T j)) by (intros i _; replace (i - -1)%Z with (i + 1)%Z by lia; reflexivity).
      rewrite (zsum_telescope 0 _ T). rewrite Z2Nat.id by lia. replace (0 + n)%Z with n by lia. rewrite E2. ring. }
    lra.
  - apply zsum_eq. intros i _. replace (i - 0)%Z with i by lia. reflexivity.
  - assert (K : zsum 0 (Z.to_nat n) (fun j => T (j - 1)%Z) - zsum 0 (Z.to_nat n) T == 0).
    { rewrite <- zsum_minus. rewrite (zsum_eq 0 _ _ (fun j => -(1) * ((fun j => T (j - 1)%Z) (j + 1)%Z - (fun j => T (j - 1)%Z) j))) by (intros i _; cbv beta; replace (i + 1 - 1)%Z with i by lia; ring).
      rewrite zsum_scale. rewrite (zsum_telescope 0 _ (fun j => T (j - 1)%Z)). cbv beta. rewrite Z2Nat.id by lia. replace (0 + n - 1)%Z with (n - 1)%Z by lia. replace (0 - 1)%Z with (-1)%Z by lia. rewrite E1. ring. }
    lra.
Qed.
Lemma zsum_lsum {A} lo n (l : list A) (f : Z -> A -> Q) : zsum lo n (fun j => lsum l (f j)) == lsum l (fun x => zsum lo n (fun j => f j x)).
Proof.
  induction l as [|x l IH].
  - unfold lsum. cbn [fold_right]. apply zsum_zero. reflexivity.
  - rewrite lsum_cons, <- IH, <- zsum_plus. apply zsum_eq. intros j _. reflexivity.
Qed.
(** Nine families of periodic values that cancel slice by slice *)
Lemma nine_cancel n1 n2 (T : Z * Z -> Z -> Z -> Q) : (1 <= n1)%Z -> (1 <= n2)%Z ->
  (forall o k, (-1 <= k <= n2)%Z -> T o (-1)%Z k == T o (n1 - 1)%Z k /\ T o n1 k == T o 0%Z k) ->
  (forall o j, (-1 <= j <= n1)%Z -> T o j (-1)%Z == T o j (n2 - 1)%Z /\ T o j n2 == T o j 0%Z) ->
  (forall j k, lsum nine (fun o => T o j k) == 0) ->
  zsum 0 (Z.to_nat n2) (fun k => zsum 0 (Z.to_nat n1) (fun j => lsum nine (fun o => T o (j - fst o)%Z (k - snd o)%Z))) == 0.
Proof.
  intros H1 H2 P1 P2 C.
  assert (Bo : forall o, In o nine -> (-1 <= fst o <= 1 /\ -1 <= snd o <= 1)%Z) by (intros o Ho; cbn in Ho; repeat (destruct Ho as [<-|Ho]; [cbn; lia|]); destruct Ho).
  rewrite (zsum_eq 0 _ _ (fun k => lsum nine (fun o => zsum 0 (Z.to_nat n1) (fun j => T o (j - fst o)%Z (k - snd o)%Z)))) by (intros k _; apply zsum_lsum).
  rewrite zsum_lsum.
  rewrite (lsum_eq nine _ (fun o => zsum 0 (Z.to_nat n2) (fun k => zsum 0 (Z.to_nat n1) (fun j => T o j k)))).
  - rewrite <- zsum_lsum. apply zsum_zero. intros k _. rewrite <- zsum_lsum. apply zsum_zero. intros j _. apply C.
  - intros o Ho. destruct (Bo o Ho) as [B1 B2].
    rewrite (zsum_eq 0 _ _ (fun k => zsum 0 (Z.to_nat n1) (fun j => T o j (k - snd o)%Z))).
    + apply (zsum_shift_period n2 (fun k => zsum 0 (Z.to_nat n1) (fun j => T o j k)) (snd o)); auto.
      * apply zsum_eq. intros j Hj. apply P2. lia.
      * apply zsum_eq. intros j Hj. apply P2. lia.
    + intros k Hk. apply (zsum_shift_period n1 (fun j => T o j (k - snd o)%Z)); auto; apply P1; lia.
Qed.

Section C.
Variable undef : Q -> Q -> Z -> Q.
Variable S : msettings.
Variable rpt : nat -> rpt3solver.
Variable rptt : nat -> rptt3solver.
Variable stale : nat -> list Z -> leftovers.
Variable trans : Z.
Hypothesis HD : described (n_order S) trans.
Notation neq := (n_neq S).
Notation g := (Z.of_nat (n_ng S)).
Notation ns := (map ncells (n_bcs S)).
Notation mxd d := (nth d ns 0%Z).
Hypothesis Hg : (2 <= n_ng S)%nat.
Hypothesis HL : length (n_bcs S) = 3%nat.
Hypothesis Hp : Forall (fun n => 1 <= n)%Z ns.
Variable auxbc qbc : arr Q.
Hypothesis Wq : wrapped S neq g 0 qbc.
Hypothesis Wa : wrapped S (n_naux S) g 0 auxbc.
Hypothesis Hk : mcapa_in_aux S.
Notation F d b := (u3_flux undef S rpt rptt stale trans d auxbc qbc b).

Lemma len3 : length ns = 3%nat.
Proof. rewrite map_length. exact HL. Qed.
Lemma same_wrap n (a : arr Q) m ix ix' : wrapped S n g 0 a -> (0 <= m < Z.of_nat n)%Z -> box S g 0 ix -> box S g 0 ix' ->
  wrap_from S ns ix = wrap_from S ns ix' -> a m ix = a m ix'.
Proof. intros W Hm B B' E. rewrite (W m ix Hm B), (W m ix' Hm B'), E. reflexivity. Qed.
(** Bases that stand for the same slice *)
Definition base_ok (d : nat) (b : list Z) : Prop :=
  length b = 3%nat /\ (g - 1 <= get (across1 d) b <= g + mxd (across1 d))%Z /\ (g - 1 <= get (across2 d) b <= g + mxd (across2 d))%Z.
Definition same_line (d : nat) (b b' : list Z) : Prop :=
  forall e, (e < 3)%nat -> e <> d -> ((get e b - g) mod mxd e = (get e b' - g) mod mxd e)%Z.
Lemma row_same n (a : arr Q) d b b' oa ob m k : (d < 3)%nat -> wrapped S n g 0 a -> (0 <= m < Z.of_nat n)%Z ->
  base_ok d b -> base_ok d b' -> same_line d b b' -> (-1 <= oa <= 1)%Z -> (-1 <= ob <= 1)%Z -> (-1 <= k <= mxd d + 2)%Z ->
  slice (n_ng S) d (move3 d oa ob b) a m k = slice (n_ng S) d (move3 d oa ob b') a m k.
Proof.
  intros Hd W Hm (L & A1 & A2) (L' & A1' & A2') SL Hoa Hob Hk'. pose proof len3 as L3. destruct (across_3 d Hd) as (K1 & K2 & K3 & K4 & K5).
  destruct (get_move3 d oa ob b Hd L) as (G0 & G1 & G2). destruct (get_move3 d oa ob b' Hd L') as (G0' & G1' & G2').
  unfold slice. apply (same_wrap n); auto.
  - split; [rewrite put_length, move3_length, L3; exact L|]. intros e He. rewrite L3 in He. change (Nat.ltb e 0) with false. cbv iota.
    destruct (across_all d e Hd He) as [E|[E|E]]; subst e.
    + rewrite get_put by (rewrite move3_length; lia). lia.
    + rewrite get_put_other by congruence. rewrite G1. lia.
    + rewrite get_put_other by congruence. rewrite G2. lia.
  - split; [rewrite put_length, move3_length, L3; exact L'|]. intros e He. rewrite L3 in He. change (Nat.ltb e 0) with false. cbv iota.
    destruct (across_all d e Hd He) as [E|[E|E]]; subst e.
    + rewrite get_put by (rewrite move3_length; lia). lia.
    + rewrite get_put_other by congruence. rewrite G1'. lia.
    + rewrite get_put_other by congruence. rewrite G2'. lia.
  - assert (LM : length (put d (k + g - 1)%Z (move3 d oa ob b)) = length ns) by (rewrite put_length, move3_length, L3; exact L).
    assert (LM' : length (put d (k + g - 1)%Z (move3 d oa ob b')) = length ns) by (rewrite put_length, move3_length, L3; exact L').
    apply list_get_ext; [rewrite !wrap_length by (assumption || lia); reflexivity|]. intros e He. rewrite wrap_length in He by (assumption || lia).
    rewrite !wrap_get by (assumption || lia). rewrite L3 in He. f_equal.
    destruct (across_all d e Hd He) as [E|[E|E]]; subst e.
    + rewrite !get_put by (rewrite move3_length; lia). reflexivity.
    + rewrite !get_put_other by congruence. rewrite G1, G1'. pose proof (SL (across1 d) K1 K3) as M.
      replace (get (across1 d) b + oa - g)%Z with (get (across1 d) b - g + oa)%Z by lia. replace (get (across1 d) b' + oa - g)%Z with (get (across1 d) b' - g + oa)%Z by lia.
      pose proof (np S Hp (across1 d) ltac:(lia)). rewrite Z.add_mod, M, <- Z.add_mod by lia. reflexivity.
    + rewrite !get_put_other by congruence. rewrite G2, G2'. pose proof (SL (across2 d) K2 K4) as M.
      replace (get (across2 d) b + ob - g)%Z with (get (across2 d) b - g + ob)%Z by lia. replace (get (across2 d) b' + ob - g)%Z with (get (across2 d) b' - g + ob)%Z by lia.
      pose proof (np S Hp (across2 d) ltac:(lia)). rewrite Z.add_mod, M, <- Z.add_mod by lia. reflexivity.
Qed.
Lemma add_periodic d b b' up sl m i : (d < 3)%nat -> base_ok d b -> base_ok d b' -> same_line d b b' -> (1 <= i <= mxd d)%Z ->
  g3add (F d b) up sl m i = g3add (F d b') up sl m i /\ h3add (F d b) up sl m i = h3add (F d b') up sl m i.
Proof.
  intros Hd B B' SL Hi. assert (LB : length b = 3%nat) by apply B. assert (LB' : length b' = 3%nat) by apply B'.
  assert (R0 : forall n (a : arr Q) c k, wrapped S n g 0 a -> (0 <= c < Z.of_nat n)%Z -> (-1 <= k <= mxd d + 2)%Z -> slice (n_ng S) d b a c k = slice (n_ng S) d b' a c k).
  { intros n a c k W Hc Hk'. pose proof (row_same n a d b b' 0 0 c k Hd W Hc B B' SL ltac:(lia) ltac:(lia) Hk') as E. rewrite !move3_0 in E by assumption. exact E. }
  unfold u3_flux. apply rows_gadd3; auto.
  - intros k Hk'. apply vec_ext. intros c Hc. apply (R0 neq); assumption.
  - intros k Hk'. rewrite !map_map. apply map_ext_in. intros o Ho. apply vec_ext. intros c Hc.
    assert (Bo : (-1 <= fst o <= 1 /\ -1 <= snd o <= 1)%Z) by (cbn in Ho; repeat (destruct Ho as [<-|Ho]; [cbn; lia|]); destruct Ho).
    apply (row_same (n_naux S)); auto; apply Bo.
  - intros k Hk'. apply line_dtdx_eq; [exact Hk|]. intros c Hc. apply (R0 (n_naux S)); assumption.
Qed.
Lemma tau_periodic d b b' m i o : (d < 3)%nat -> base_ok d b -> base_ok d b' -> same_line d b b' -> (1 <= i <= mxd d)%Z ->
  tau S d (F d b) m i o = tau S d (F d b') m i o.
Proof.
  intros Hd B B' SL Hi. unfold tau. cbv zeta.
  assert (EG : forall up sl, g3add (F d b) up sl m i = g3add (F d b') up sl m i) by (intros; apply add_periodic; assumption).
  assert (EH : forall up sl, h3add (F d b) up sl m i = h3add (F d b') up sl m i) by (intros; apply add_periodic; assumption).
  rewrite !EG, !EH. reflexivity.
Qed.

Hypothesis HK : forall ix, box S 0 0 ix -> ~ mcapacity S auxbc ix == 0.
Lemma trans3_total d m : (d < 3)%nat ->
  boxsum ns (fun ix => mcapacity S auxbc (shift g ix) * u3_trans undef S rpt rptt stale trans auxbc qbc d m (shift g ix)) == 0.
Proof.
  intros Hd. pose proof len3 as L3. destruct (across_3 d Hd) as (K1 & K2 & K3 & K4 & K5).
  etransitivity; [apply (boxsum_dim (across1 d)); lia|]. etransitivity; [apply (boxsum_dim (across2 d)); rewrite put_length; lia|].
  rewrite <- (get_nth (across2 d)), get_put_other by congruence. rewrite get_nth.
  etransitivity; [|apply (boxsum_zero (put (across2 d) 1 (put (across1 d) 1 ns)))].
  apply boxsum_eq. intros ix HLx HB. rewrite !put_length in *.
  assert (Hi : (0 <= get d ix < mxd d)%Z).
  { specialize (HB d ltac:(lia)). rewrite <- (get_nth d (put _ _ _)) in HB. rewrite !get_put_other in HB by congruence. rewrite get_nth in HB. rewrite <- (get_nth d ns) in *. rewrite get_nth. exact HB. }
  clear HB. pose proof (np S Hp (across1 d) ltac:(lia)) as P1. pose proof (np S Hp (across2 d) ltac:(lia)) as P2.
  set (B := fun j k : Z => put (across2 d) (k + g)%Z (put (across1 d) (j + g)%Z (put d 0%Z ix))).
  assert (LB : forall j k, length (B j k) = 3%nat) by (intros; unfold B; rewrite !put_length; lia).
  assert (GB1 : forall j k, get (across1 d) (B j k) = (j + g)%Z) by (intros; unfold B; rewrite get_put_other by congruence; apply get_put; rewrite put_length; lia).
  assert (GB2 : forall j k, get (across2 d) (B j k) = (k + g)%Z) by (intros; unfold B; apply get_put; rewrite !put_length; lia).
  assert (GB0 : forall j k, get d (B j k) = 0%Z) by (intros; unfold B; rewrite !get_put_other by congruence; apply get_put; lia).
  assert (OK : forall j k, (-1 <= j <= mxd (across1 d))%Z -> (-1 <= k <= mxd (across2 d))%Z -> base_ok d (B j k)).
  { intros j k Hj Hk'. split; [apply LB|]. rewrite GB1, GB2. lia. }
  pose (T := fun (o : Z * Z) j k => tau S d (F d (B j k)) m (get d ix + 1) o).
  etransitivity; [|apply (nine_cancel (mxd (across1 d)) (mxd (across2 d)) T P1 P2)].
  - apply zsum_eq. intros k Hk'. apply zsum_eq. intros j Hj.
    set (X := shift g (put (across1 d) j (put (across2 d) k ix))).
    assert (LX : length X = 3%nat) by (unfold X; rewrite shift_length, !put_length; lia).
    assert (X0 : get d X = (get d ix + g)%Z) by (unfold X; rewrite get_shift by (rewrite !put_length; lia); rewrite !get_put_other by congruence; reflexivity).
    assert (X1 : get (across1 d) X = (j + g)%Z) by (unfold X; rewrite get_shift by (rewrite !put_length; lia); rewrite get_put by (rewrite put_length; lia); reflexivity).
    assert (X2 : get (across2 d) X = (k + g)%Z) by (unfold X; rewrite get_shift by (rewrite !put_length; lia); rewrite get_put_other by congruence; rewrite get_put by lia; reflexivity).
    assert (NZ : ~ mcapacity S auxbc X == 0).
    { apply HK. split; [lia|]. intros e He. rewrite L3 in He. change (Nat.ltb e 0) with false. cbv iota.
      destruct (across_all d e Hd He) as [E|[E|E]]; subst e; [rewrite X0|rewrite X1|rewrite X2]; lia. }
    assert (EC : forall x, mcapacity S auxbc X * over_cap S auxbc x X == x).
    { intros x. unfold mcapacity, over_cap in *. destruct (n_capa S) as [c|]; [|ring]. field. exact NZ. }
    unfold u3_trans. rewrite EC. apply lsum_eq. intros o Ho. unfold T. rewrite X0. replace (get d ix + g - g + 1)%Z with (get d ix + 1)%Z by lia.
    replace (from_slice d X o) with (B (j - fst o)%Z (k - snd o)%Z); [reflexivity|].
    destruct (from_slice_get d X o Hd LX) as (Y0 & Y1 & Y2). apply (ext3 d); auto.
    + rewrite from_slice_length. exact LX.
    + rewrite Y0. apply GB0.
    + rewrite Y1, X1, GB1. lia.
    + rewrite Y2, X2, GB2. lia.
  - assert (MP : forall e x n, (1 <= n)%Z -> (e = x + n)%Z -> (e mod n = x mod n)%Z) by (intros e x n Hn ->; rewrite <- (Z.mul_1_l n) at 1; apply Z.mod_add; lia).
    assert (SM : forall j k j' k', ((j mod mxd (across1 d) = j' mod mxd (across1 d))%Z) -> ((k mod mxd (across2 d) = k' mod mxd (across2 d))%Z) -> same_line d (B j k) (B j' k')).
    { intros j k j' k' E1 E2 e He Hne. destruct (across_all d e Hd He) as [E|[E|E]]; [contradiction| |]; subst e; rewrite ?GB1, ?GB2.
      - replace (j + g - g)%Z with j by lia. replace (j' + g - g)%Z with j' by lia. exact E1.
      - replace (k + g - g)%Z with k by lia. replace (k' + g - g)%Z with k' by lia. exact E2. }
    intros o k Hk'. unfold T. split.
    + rewrite (tau_periodic d (B (-1) k)%Z (B (mxd (across1 d) - 1) k)%Z); [reflexivity|exact Hd|apply OK; lia|apply OK; lia| |lia].
      apply SM; [|reflexivity]. symmetry. apply MP; lia.
    + rewrite (tau_periodic d (B (mxd (across1 d)) k) (B 0 k)%Z); [reflexivity|exact Hd|apply OK; lia|apply OK; lia| |lia].
      apply SM; [|reflexivity]. apply MP; lia.
  - assert (MP : forall e x n, (1 <= n)%Z -> (e = x + n)%Z -> (e mod n = x mod n)%Z) by (intros e x n Hn ->; rewrite <- (Z.mul_1_l n) at 1; apply Z.mod_add; lia).
    assert (SM : forall j k j' k', ((j mod mxd (across1 d) = j' mod mxd (across1 d))%Z) -> ((k mod mxd (across2 d) = k' mod mxd (across2 d))%Z) -> same_line d (B j k) (B j' k')).
    { intros j k j' k' E1 E2 e He Hne. destruct (across_all d e Hd He) as [E|[E|E]]; [contradiction| |]; subst e; rewrite ?GB1, ?GB2.
      - replace (j + g - g)%Z with j by lia. replace (j' + g - g)%Z with j' by lia. exact E1.
      - replace (k + g - g)%Z with k by lia. replace (k' + g - g)%Z with k' by lia. exact E2. }
    intros o j Hj. unfold T. split.
    + rewrite (tau_periodic d (B j (-1))%Z (B j (mxd (across2 d) - 1))%Z); [reflexivity|exact Hd|apply OK; lia|apply OK; lia| |lia].
      apply SM; [reflexivity|]. symmetry. apply MP; lia.
    + rewrite (tau_periodic d (B j (mxd (across2 d))) (B j 0)%Z); [reflexivity|exact Hd|apply OK; lia|apply OK; lia| |lia].
      apply SM; [reflexivity|]. apply MP; lia.
  - intros j k. apply tau_balance.
Qed.

Variable flux : nat -> list Q -> list Q -> Z -> Q.
Hypothesis HC : all_conservative S flux.
Lemma unsplit3_total m : (0 <= m < Z.of_nat neq)%Z ->
  boxsum ns (fun ix => mcapacity S auxbc (shift g ix) * fst (step3 undef S rpt rptt stale trans auxbc qbc qbc) m (shift g ix)) ==
  boxsum ns (fun ix => mcapacity S auxbc (shift g ix) * qbc m (shift g ix)).
Proof.
  intros Hm. assert (Hn : Forall (fun n => 0 <= n)%Z ns) by (eapply Forall_impl; [|exact Hp]; cbv beta; lia).
  pose proof len3 as HLn.
  assert (Hg1 : (1 <= n_ng S)%nat) by lia. assert (Hx : (0 <= g)%Z) by lia.
  assert (Hr : (reach (n_nw S) (n_order S) (n_mthlim S) <= g)%Z) by (unfold reach; destruct (small_stencil _ _ _); lia).
  assert (Wd : forall d, wrapped S neq g d qbc).
  { intros d c ix Hc HB. apply Wq; [exact Hc|]. destruct HB as [HLx HB]. split; [exact HLx|]. intros j Hj. specialize (HB j Hj).
    change (Nat.ltb j 0) with false. cbv iota. destruct (Nat.ltb j d); lia. }
  pose proof (fun d Hd => sweep_conserves undef S Hg1 Hn auxbc Hp g Hx Hr Wa Hk (flux d) d false qbc m Hd (HC d ltac:(lia)) Hm (Wd d) HK) as SC.
  set (c := fun ix => mcapacity S auxbc (shift g ix)) in *.
  pose (B := boxsum ns (fun ix => c ix * qbc m (shift g ix))).
  pose (D := fun d ix => c ix * (fst (sweep undef S g false d auxbc qbc qbc) m (shift g ix)) + - (c ix * qbc m (shift g ix))).
  assert (DZ : forall d, (d < 3)%nat -> boxsum ns (D d) == 0).
  { intros d Hd. unfold D. rewrite boxsum_plus. specialize (SC d ltac:(lia)).
    assert (X : boxsum ns (fun ix => c ix * qbc m (shift g ix)) + boxsum ns (fun ix => - (c ix * qbc m (shift g ix))) == 0).
    { rewrite <- boxsum_plus. etransitivity; [|apply (boxsum_zero ns)]. apply boxsum_eq. intros. ring. }
    unfold c in SC, X |- *. cbv beta in SC, X |- *. rewrite SC. exact X. }
  pose proof (fun d Hd => trans3_total d m Hd) as TZ.
  assert (E : boxsum ns (fun ix => c ix * fst (step3 undef S rpt rptt stale trans auxbc qbc qbc) m (shift g ix)) ==
    B + (boxsum ns (D 0%nat) + boxsum ns (fun ix => c ix * u3_trans undef S rpt rptt stale trans auxbc qbc 0 m (shift g ix)))
      + (boxsum ns (D 1%nat) + boxsum ns (fun ix => c ix * u3_trans undef S rpt rptt stale trans auxbc qbc 1 m (shift g ix)))
      + (boxsum ns (D 2%nat) + boxsum ns (fun ix => c ix * u3_trans undef S rpt rptt stale trans auxbc qbc 2 m (shift g ix)))).
  { unfold B. rewrite <- !boxsum_plus. apply boxsum_eq. intros ix HLx HI. unfold D.
    rewrite (step3_value undef S rpt rptt stale trans Hg1 auxbc qbc HL Hn g m); [|exact Hx|].
    - destruct (sweep_at undef S Hg1 Hn g false 0 auxbc qbc Hx ltac:(lia)) as [A0 _]. destruct (sweep_at undef S Hg1 Hn g false 1 auxbc qbc Hx ltac:(lia)) as [A1 _].
      destruct (sweep_at undef S Hg1 Hn g false 2 auxbc qbc Hx ltac:(lia)) as [A2 _]. rewrite A0, A1, A2 by exact Hm. ring.
    - split; [rewrite shift_length; lia|]. intros d Hd. rewrite get_shift by lia. specialize (HI d ltac:(lia)). lia. }
  etransitivity; [exact E|]. rewrite !DZ by lia. unfold c. rewrite !TZ by lia. unfold B, c. ring.
Qed.
End C.

Theorem unsplit3_step_conserves undef S rpt rptt stale trans flux q aux qbc0 auxbc0 :
  length (n_bcs S) = 3%nat -> (2 <= n_ng S)%nat -> described (n_order S) trans -> Forall (periodic_dim (n_ng S)) (n_bcs S) ->
  mcapa_in_aux S -> all_conservative S flux ->
  (forall ix, in_domain (n_bcs S) ix -> ~ mcapacity S aux ix == 0) ->
  exists q' cfl, unsplit3_step undef S rpt rptt stale trans q aux qbc0 auxbc0 = MStepped q' cfl /\
  forall m, (0 <= m < Z.of_nat (n_neq S))%Z -> mtotal S aux q' m == mtotal S aux q m.
Proof.
  intros HL Hg2 HD HP Hk HC HK. assert (Hg : (1 <= n_ng S)%nat) by lia.
  assert (FD : Forall (fit_dim (n_ng S) (Nat.ltb 0 (n_naux S)) (Z.of_nat (n_neq S))) (n_bcs S)).
  { eapply Forall_impl; [|exact HP]. intros D HDD. apply periodic_fit; assumption. }
  destruct (apply_bcs_at Q Qopp (n_ng S) (Nat.ltb 0 (n_naux S)) (n_funs S) (Z.of_nat (n_neq S)) (n_bcs S) q aux qbc0 auxbc0 Hg FD)
    as (qbc & auxbc & E & A & B & _).
  unfold unsplit3_step. rewrite E. cbv zeta. eexists. eexists. split; [reflexivity|]. intros m Hm.
  assert (A' : forall c pos, in_box (n_ng S) (n_bcs S) pos -> qbc c (shift (Z.of_nat (n_ng S)) pos) = q c (pmod (n_bcs S) pos)).
  { intros c pos HB. rewrite A by exact HB. apply (periodic_no_wall (n_ng S)); assumption. }
  assert (B' : n_naux S <> 0%nat -> forall c pos, in_box (n_ng S) (n_bcs S) pos -> auxbc c (shift (Z.of_nat (n_ng S)) pos) = aux c (pmod (n_bcs S) pos)).
  { intros Hna c pos HB. rewrite B by (try exact HB; apply Nat.ltb_lt; lia). unfold aux_ghost_value.
    rewrite (periodic_srcs (n_ng S) Hg a_lo a_hi (n_bcs S)); auto. intros D (_ & _ & X & Y & _). auto. }
  assert (Wa : wrapped S (n_naux S) (Z.of_nat (n_ng S)) 0 auxbc).
  { destruct (Nat.eq_dec (n_naux S) 0) as [E0|E0].
    - intros mm ix Hmm. rewrite E0 in Hmm. lia.
    - eapply ghosts_wrapped; [exact Hg|exact HP| |exact (B' E0)]. lia. }
  assert (CA : forall pos, in_domain (n_bcs S) pos -> mcapacity S auxbc (shift (Z.of_nat (n_ng S)) pos) = mcapacity S aux pos).
  { intros pos HDD. unfold mcapacity. destruct (n_capa S) as [k|] eqn:Ek; [|reflexivity]. specialize (Hk k Ek).
    rewrite B' by (try lia; apply in_domain_box; exact HDD). rewrite pmod_id by exact HDD. reflexivity. }
  assert (HK' : forall ix, box S 0 0 ix -> ~ mcapacity S auxbc ix == 0).
  { intros ix [HLx HB]. rewrite <- (shift_fwd (Z.of_nat (n_ng S)) ix).
    assert (DM : in_domain (n_bcs S) (shift (- Z.of_nat (n_ng S)) ix)).
    { apply in_domain_get. split; [rewrite shift_length; exact HLx|]. intros j Hj. rewrite get_shift by lia. specialize (HB j Hj).
      change (Nat.ltb j 0) with false in HB. cbv iota in HB. lia. }
    rewrite CA by exact DM. apply HK. exact DM. }
  assert (Wq : wrapped S (n_neq S) (Z.of_nat (n_ng S)) 0 qbc) by (eapply ghosts_wrapped; [exact Hg|exact HP| |exact A']; lia).
  unfold mtotal.
  etransitivity; [|etransitivity; [apply (unsplit3_total undef S rpt rptt stale trans HD Hg2 HL (per_pos S Hg HP) auxbc qbc Wq Wa Hk HK' flux HC m Hm)|]].
  - apply boxsum_eq. intros ix H1 H2. rewrite CA by (apply in_domain_get; auto). reflexivity.
  - apply boxsum_eq. intros ix H1 H2. assert (DM : in_domain (n_bcs S) ix) by (apply in_domain_get; auto).
    rewrite CA by exact DM. rewrite A' by (apply in_domain_box; exact DM). rewrite pmod_id by exact DM. reflexivity.
Qed.
