(** Proofs about the unsplit three-dimensional solver: what one step adds to an interior cell. *)
From Verif Require Import Base BCModel BCSpec BCProofs LimiterModel LimiterProofs Classic1DModel Classic1DSpec
  Classic1DProofs Classic1DProofs2 SweepModel SweepSpec SweepProofs SweepProofs2 SweepProofs4 Unsplit3Model.

(** ** Sums over lists *)
Definition lsum {A} (l : list A) (f : A -> Q) : Q := fold_right (fun x s => f x + s) 0 l.
Lemma lsum_eq {A} (l : list A) f h : (forall x, In x l -> f x == h x) -> lsum l f == lsum l h.
Proof.
  induction l as [|x l IH]; intros H; cbn [lsum fold_right]; [reflexivity|].
  rewrite (H x (or_introl eq_refl)). unfold lsum in IH. rewrite IH; [reflexivity|]. intros y Hy. apply H. right. exact Hy.
Qed.
Lemma lsum_app {A} (l l' : list A) f : lsum (l ++ l') f == lsum l f + lsum l' f.
Proof. unfold lsum. induction l as [|x l IH]; cbn [app fold_right]; [ring|]. rewrite IH. ring. Qed.
Lemma lsum_cons {A} x (l : list A) f : lsum (x :: l) f = f x + lsum l f.
Proof. reflexivity. Qed.
Lemma lsum_map {A B} (t : A -> B) l f : lsum (map t l) f = lsum l (fun x => f (t x)).
Proof. unfold lsum. induction l as [|x l IH]; cbn [map fold_right]; [reflexivity|]. rewrite IH. reflexivity. Qed.
(** Only the members of T contribute. *)
Lemma lsum_sparse {A} (dec : forall x y : A, {x = y} + {x <> y}) (f : A -> Q) : forall L T, NoDup L -> NoDup T -> incl T L ->
  (forall x, In x L -> ~ In x T -> f x == 0) -> lsum L f == lsum T f.
Proof.
  induction L as [|x L IH]; intros T NL NT HI H0.
  - destruct T as [|y T]; [reflexivity|]. destruct (HI y (or_introl eq_refl)).
  - inversion NL as [|? ? Hx NL']; subst. rewrite lsum_cons. destruct (in_dec dec x T) as [Hin|Hout].
    + apply in_split in Hin. destruct Hin as (T1 & T2 & ->).
      pose proof (NoDup_remove_1 _ _ _ NT) as NT'. pose proof (NoDup_remove_2 _ _ _ NT) as Nx.
      rewrite lsum_app, lsum_cons. rewrite (IH (T1 ++ T2)); auto.
      * rewrite lsum_app. ring.
      * intros y Hy. assert (y <> x) by (intros ->; contradiction). destruct (HI y) as [E|E]; auto.
        -- apply in_app_iff in Hy. apply in_app_iff. cbn [In]. tauto.
        -- congruence.
      * intros y Hy Hn. apply H0; [right; exact Hy|]. intros K. apply Hn. apply in_app_iff in K. cbn [In] in K. apply in_app_iff.
        destruct K as [K|[K|K]]; auto. subst y. contradiction.
    + rewrite (H0 x (or_introl eq_refl) Hout). rewrite (IH T); auto; [ring| |].
      * intros y Hy. destruct (HI y Hy) as [E|E]; [subst y; contradiction|exact E].
      * intros y Hy Hn. apply H0; [right; exact Hy|exact Hn].
Qed.
Definition zl_dec : forall x y : list Z, {x = y} + {x <> y} := list_eq_dec Z.eq_dec.

(** ** Positions across *)
Lemma across_3 d : (d < 3)%nat -> (across1 d < 3)%nat /\ (across2 d < 3)%nat /\ across1 d <> d /\ across2 d <> d /\ across1 d <> across2 d.
Proof. intros Hd. destruct d as [|[|[|d]]]; cbn; lia. Qed.
Lemma across_all d e : (d < 3)%nat -> (e < 3)%nat -> e = d \/ e = across1 d \/ e = across2 d.
Proof. intros Hd He. destruct d as [|[|[|d]]]; destruct e as [|[|[|e]]]; cbn; lia. Qed.
Lemma move3_length d a b ix : length (move3 d a b ix) = length ix.
Proof. unfold move3. rewrite !put_length. reflexivity. Qed.
Lemma get_move3 d a b ix : (d < 3)%nat -> length ix = 3%nat ->
  get d (move3 d a b ix) = get d ix /\ get (across1 d) (move3 d a b ix) = (get (across1 d) ix + a)%Z /\
  get (across2 d) (move3 d a b ix) = (get (across2 d) ix + b)%Z.
Proof.
  intros Hd HL. destruct (across_3 d Hd) as (H1 & H2 & H3 & H4 & H5). unfold move3. repeat split.
  - rewrite !get_put_other by congruence. reflexivity.
  - rewrite get_put_other by congruence. apply get_put. lia.
  - rewrite get_put by (rewrite put_length; lia). reflexivity.
Qed.
Lemma ext3 d ix ix' : (d < 3)%nat -> length ix = 3%nat -> length ix' = 3%nat -> get d ix = get d ix' ->
  get (across1 d) ix = get (across1 d) ix' -> get (across2 d) ix = get (across2 d) ix' -> ix = ix'.
Proof.
  intros Hd HL HL' H0 H1 H2. apply list_get_ext; [congruence|]. intros e He. rewrite HL in He.
  destruct (across_all d e Hd He) as [E|[E|E]]; subst e; assumption.
Qed.
Lemma move3_0 d ix : (d < 3)%nat -> length ix = 3%nat -> move3 d 0 0 ix = ix.
Proof.
  intros Hd HL. destruct (get_move3 d 0 0 ix Hd HL) as (H0 & H1 & H2). apply (ext3 d); auto; [rewrite move3_length; exact HL| |]; rewrite ?H1, ?H2; lia.
Qed.

(** The slice at distance o from a cell *)
Definition from_slice (d : nat) (ix : list Z) (o : Z * Z) : list Z := move3 d (- fst o) (- snd o) (put d 0 ix).
Lemma from_slice_length d ix o : length (from_slice d ix o) = length ix.
Proof. unfold from_slice. rewrite move3_length, put_length. reflexivity. Qed.
Lemma from_slice_get d ix o : (d < 3)%nat -> length ix = 3%nat ->
  get d (from_slice d ix o) = 0%Z /\ get (across1 d) (from_slice d ix o) = (get (across1 d) ix - fst o)%Z /\
  get (across2 d) (from_slice d ix o) = (get (across2 d) ix - snd o)%Z.
Proof.
  intros Hd HLx. destruct (across_3 d Hd) as (H1 & H2 & H3 & H4 & H5). unfold from_slice.
  destruct (get_move3 d (- fst o) (- snd o) (put d 0 ix) Hd ltac:(rewrite put_length; exact HLx)) as (A & B & C). rewrite A, B, C.
  rewrite get_put by lia. rewrite !get_put_other by congruence. repeat split; lia.
Qed.

Section U.
Variable undef : Q -> Q -> Z -> Q.
Variable S : msettings.
Variable rpt : nat -> rpt3solver.
Variable rptt : nat -> rptt3solver.
Variable stale : nat -> list Z -> leftovers.
Variable trans : Z.
Notation neq := (n_neq S).
Notation g := (Z.of_nat (n_ng S)).
Notation ns := (map ncells (n_bcs S)).
Notation mxd d := (nth d ns 0%Z).
Hypothesis Hg : (1 <= n_ng S)%nat.
Variable auxbc qold : arr Q.
Notation F d b := (u3_flux undef S rpt rptt stale trans d auxbc qold b).

Lemma u3_change_add d G base v m ix : u3_change S d G auxbc base v m ix == v + u3_change S d G auxbc base 0 m ix.
Proof.
  unfold u3_change. destruct (in_slice _ _ _); [|ring].
  destruct (get (across1 d) ix - get (across1 d) base)%Z as [|[p|p|]|[p|p|]]; destruct (get (across2 d) ix - get (across2 d) base)%Z as [|[p'|p'|]|[p'|p'|]]; ring.
Qed.
Lemma u3_sweep_sum d st m ix : fst (u3_sweep undef S rpt rptt stale trans d auxbc qold st) m ix ==
  fst st m ix + lsum (lines d (n_ng S) 1 ns) (fun b => u3_change S d (F d b) auxbc b 0 m ix).
Proof.
  unfold u3_sweep. generalize (lines d (n_ng S) 1 ns) as l. intros l. revert st.
  induction l as [|b l IH]; intros st; cbn [fold_left].
  - unfold lsum. cbn [fold_right]. ring.
  - rewrite IH, lsum_cons. unfold u3_body. cbv zeta. cbn [fst]. rewrite (u3_change_add d (F d b) b (fst st m ix)). ring.
Qed.

(** What the slice at distance (a,b) sends across to a cell, before division by the capacity *)
Definition tau (d : nat) (G : slice3_out) (m i : Z) (o : Z * Z) : Q :=
  let dty := n_dt S / n_delta S (across1 d) in
  let dtz := n_dt S / n_delta S (across2 d) in
  let gg := fun k sl => g3add G k sl m i in
  let hh := fun k sl => h3add G k sl m i in
  match fst o, snd o with
  | 0%Z, 0%Z => - (dty * (gg true 0%Z - gg false 0%Z) + dtz * (hh true 0%Z - hh false 0%Z))
  | (-1)%Z, 0%Z => - (dty * gg false 0%Z + dtz * (hh true (-1)%Z - hh false (-1)%Z))
  | (-1)%Z, (-1)%Z => - (dty * gg false (-1)%Z + dtz * hh false (-1)%Z)
  | 0%Z, (-1)%Z => - (dty * (gg true (-1)%Z - gg false (-1)%Z) + dtz * hh false 0%Z)
  | 1%Z, (-1)%Z => dty * gg true (-1)%Z - dtz * hh false 1%Z
  | 1%Z, 0%Z => dty * gg true 0%Z - dtz * (hh true 1%Z - hh false 1%Z)
  | 1%Z, 1%Z => dty * gg true 1%Z + dtz * hh true 1%Z
  | 0%Z, 1%Z => - (dty * (gg true 1%Z - gg false 1%Z) - dtz * hh true 0%Z)
  | (-1)%Z, 1%Z => - (dty * gg false 1%Z - dtz * hh true (-1)%Z)
  | _, _ => 0
  end.
(** A slice takes from itself what it sends to its neighbours. *)
Lemma tau_balance d G m i : lsum nine (tau d G m i) == 0.
Proof. unfold nine, lsum, tau. cbn [fold_right fst snd]. cbv zeta. ring. Qed.
Definition over_cap (x : Q) (ix : list Z) : Q := match n_capa S with None => x | Some k => x / auxbc k ix end.
Definition u3_trans (d : nat) (m : Z) (ix : list Z) : Q :=
  over_cap (lsum nine (fun o => tau d (F d (from_slice d ix o)) m (get d ix - g + 1) o)) ix.
Definition interior3 (ix : list Z) : Prop := length ix = 3%nat /\ forall d, (d < 3)%nat -> (g <= get d ix < g + mxd d)%Z.

Lemma normal_same d b : (d < 3)%nat -> length b = 3%nat -> normal (F d b) = line_flux undef S d b auxbc qold.
Proof.
  intros Hd HL. unfold u3_flux, line_flux, flux3. cbv zeta. unfold aux22. cbn [nine map nth fst snd].
  rewrite move3_0 by assumption. destruct (Z.leb (digit3 trans) 0); reflexivity.
Qed.

Hypothesis HL : length (n_bcs S) = 3%nat.
Hypothesis Hn : Forall (fun n => 0 <= n)%Z ns.
Lemma cap_add (x y : Q) ix : over_cap (x + y) ix == over_cap x ix + over_cap y ix.
Proof. unfold over_cap. destruct (n_capa S); unfold Qdiv; ring. Qed.
Lemma cap_lsum {A} (l : list A) f ix : over_cap (lsum l f) ix == lsum l (fun x => over_cap (f x) ix).
Proof.
  induction l as [|x l IH].
  - unfold over_cap, lsum. cbn [fold_right]. destruct (n_capa S); unfold Qdiv; ring.
  - rewrite !lsum_cons, cap_add, IH. reflexivity.
Qed.
Lemma from_slice_in d ix o : (d < 3)%nat -> interior3 ix -> In o nine -> In (from_slice d ix o) (lines d (n_ng S) 1 ns).
Proof.
  intros Hd [HLx HI] Ho. destruct (across_3 d Hd) as (H1 & H2 & H3 & H4 & H5). destruct (from_slice_get d ix o Hd HLx) as (A & B & C).
  assert (Bo : (-1 <= fst o <= 1 /\ -1 <= snd o <= 1)%Z) by (cbn in Ho; repeat (destruct Ho as [<-|Ho]; [cbn; lia|]); destruct Ho).
  apply lines_in; [lia|exact Hn|]. rewrite from_slice_length, map_length. split; [lia|]. intros e He. rewrite HL in He.
  destruct (across_all d e Hd He) as [E|[E|E]].
  - subst e. rewrite Nat.eqb_refl. exact A.
  - rewrite E. replace (Nat.eqb (across1 d) d) with false by (symmetry; apply Nat.eqb_neq; congruence). rewrite B. specialize (HI (across1 d) H1). lia.
  - rewrite E. replace (Nat.eqb (across2 d) d) with false by (symmetry; apply Nat.eqb_neq; congruence). rewrite C. specialize (HI (across2 d) H2). lia.
Qed.
Lemma u3_sum d m ix : (d < 3)%nat -> interior3 ix ->
  lsum (lines d (n_ng S) 1 ns) (fun b => u3_change S d (F d b) auxbc b 0 m ix) ==
  line_change S d (line_flux undef S d (put d 0 ix) auxbc qold) (slice (n_ng S) d (put d 0 ix) auxbc) 0 m (get d ix - g + 1) + u3_trans d m ix.
Proof.
  intros Hd HI. assert (HI' := HI). destruct HI' as [HLx Hin]. pose proof (Hin d Hd) as H1. destruct (across_3 d Hd) as (K1 & K2 & K3 & K4 & K5).
  etransitivity; [apply (lsum_sparse zl_dec _ _ (map (from_slice d ix) nine))|].
  - apply lines_nodup.
  - apply FinFun.Injective_map_NoDup.
    + intros [a b] [a' b'] E. destruct (from_slice_get d ix (a, b) Hd HLx) as (_ & B & C). destruct (from_slice_get d ix (a', b') Hd HLx) as (_ & B' & C').
      rewrite E in B, C. rewrite B in B'. rewrite C in C'. cbn [fst snd] in B', C'. f_equal; lia.
    + unfold nine. repeat constructor; cbn; intuition discriminate.
  - intros x Hx. apply in_map_iff in Hx. destruct Hx as (o & <- & Ho). apply from_slice_in; assumption.
  - intros x Hx Hout. unfold u3_change. rewrite in_slice_true by lia.
    apply lines_in in Hx; [|lia|exact Hn]. destruct Hx as [Lx Hx]. rewrite map_length, HL in Lx.
    assert (N : ~ In (get (across1 d) ix - get (across1 d) x, get (across2 d) ix - get (across2 d) x)%Z nine).
    { intros K. apply Hout. apply in_map_iff. eexists. split; [|exact K]. destruct (from_slice_get d ix (get (across1 d) ix - get (across1 d) x, get (across2 d) ix - get (across2 d) x)%Z Hd HLx) as (A & B & C).
      cbn [fst snd] in B, C. apply (ext3 d); auto; [rewrite from_slice_length; exact HLx| |lia|lia].
      rewrite A. specialize (Hx d ltac:(rewrite map_length; lia)). rewrite Nat.eqb_refl in Hx. congruence. }
    revert N. generalize (get (across1 d) ix - get (across1 d) x)%Z as a. generalize (get (across2 d) ix - get (across2 d) x)%Z as b. intros b a N.
    destruct a as [|[p|p|]|[p|p|]]; try reflexivity; destruct b as [|[p|p|]|[p|p|]]; try reflexivity; exfalso; apply N; cbn; tauto.
  - rewrite lsum_map. unfold u3_trans. rewrite cap_lsum.
    assert (CH : forall o, In o nine -> u3_change S d (F d (from_slice d ix o)) auxbc (from_slice d ix o) 0 m ix ==
      (if (Z.eqb (fst o) 0 && Z.eqb (snd o) 0)%bool then line_change S d (line_flux undef S d (put d 0 ix) auxbc qold) (slice (n_ng S) d (put d 0 ix) auxbc) 0 m (get d ix - g + 1) else 0)
      + over_cap (tau d (F d (from_slice d ix o)) m (get d ix - g + 1) o) ix).
    { intros o Ho. destruct (from_slice_get d ix o Hd HLx) as (_ & B & C). unfold u3_change. rewrite in_slice_true by lia. rewrite B, C.
      replace (get (across1 d) ix - (get (across1 d) ix - fst o))%Z with (fst o) by lia. replace (get (across2 d) ix - (get (across2 d) ix - snd o))%Z with (snd o) by lia.
      unfold tau, over_cap. cbv zeta.
      assert (LC : o = (0, 0)%Z -> normal (F d (from_slice d ix o)) = line_flux undef S d (put d 0 ix) auxbc qold).
      { intros ->. unfold from_slice. cbn [fst snd Z.opp]. rewrite move3_0 by (auto; rewrite put_length; exact HLx). apply normal_same; auto. rewrite put_length. exact HLx. }
      cbn in Ho. destruct Ho as [<-|[<-|[<-|[<-|[<-|[<-|[<-|[<-|[<-|[]]]]]]]]]]; cbn [fst snd Z.eqb andb]; try (destruct (n_capa S); unfold Qdiv; ring).
      rewrite LC by reflexivity. unfold line_change. cbv zeta. destruct (n_capa S) as [k|]; [|ring]. unfold slice. rewrite put_put.
      replace (get d ix - g + 1 + g - 1)%Z with (get d ix) by lia. rewrite put_get. unfold Qdiv. ring. }
    rewrite (lsum_eq nine _ _ CH). unfold nine, lsum. cbn [fold_right fst snd Z.eqb andb]. ring.
Qed.

Lemma line_change_add3 d G a v m i : line_change S d G a v m i == v + line_change S d G a 0 m i.
Proof. unfold line_change. destruct (n_capa S); ring. Qed.
Lemma interior3_swept ext d ix : (0 <= ext)%Z -> (d < 3)%nat -> interior3 ix -> swept S ext d ix = true.
Proof.
  intros Hx Hd [HLx HI]. unfold swept. rewrite andb_true_iff, existsb_exists. split.
  - exists (put d 0 ix). split; [|apply zlist_eqb_refl]. apply lines_in; [exact Hx|exact Hn|]. rewrite put_length, map_length. split; [lia|].
    intros j Hj. destruct (Nat.eqb_spec j d) as [E|Hne]; [subst j; apply get_put; lia|]. rewrite get_put_other by lia. specialize (HI j ltac:(lia)). lia.
  - specialize (HI d Hd). apply in_slice_true. lia.
Qed.

(** An interior cell changes by what sweeps in x, y and z from the old data would do, plus the transverse corrections. *)
Theorem step3_value ext m ix : (0 <= ext)%Z -> interior3 ix ->
  fst (step3 undef S rpt rptt stale trans auxbc qold qold) m ix ==
  qold m ix + ((sweep_value undef S ext 0 auxbc qold (qold m ix) m ix - qold m ix) + u3_trans 0 m ix)
  + ((sweep_value undef S ext 1 auxbc qold (qold m ix) m ix - qold m ix) + u3_trans 1 m ix)
  + ((sweep_value undef S ext 2 auxbc qold (qold m ix) m ix - qold m ix) + u3_trans 2 m ix).
Proof.
  intros Hx HI. unfold step3. cbv zeta. rewrite !u3_sweep_sum. cbn [fst]. rewrite !u3_sum by (assumption || lia).
  unfold sweep_value. rewrite !interior3_swept by (assumption || lia).
  rewrite (line_change_add3 0 _ _ (qold m ix)), (line_change_add3 1 _ _ (qold m ix)), (line_change_add3 2 _ _ (qold m ix)). ring.
Qed.

(** The Courant number *)
Lemma u3_sweep_cfl d st : (d < 3)%nat -> snd (u3_sweep undef S rpt rptt stale trans d auxbc qold st) =
  fold_left (fun c b => pymax c (cfl1d (line_flux undef S d b auxbc qold))) (lines d (n_ng S) 1 ns) (snd st).
Proof.
  intros Hd. unfold u3_sweep. assert (K : forall b, In b (lines d (n_ng S) 1 ns) -> length b = 3%nat).
  { intros b Hb. apply lines_in in Hb; [|lia|exact Hn]. destruct Hb as [Hb _]. rewrite map_length in Hb. congruence. }
  revert K st. generalize (lines d (n_ng S) 1 ns) as l. induction l as [|b l IH]; intros K st; cbn [fold_left]; [reflexivity|].
  rewrite IH by (intros; apply K; right; assumption). cbn [u3_body snd]. rewrite normal_same; auto. apply K. left. reflexivity.
Qed.
End U.
