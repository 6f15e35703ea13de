(** Proofs about three-dimensional problems with the axes in another order. *)
From Verif Require Import Base BCModel BCSpec BCProofs LimiterModel LimiterProofs Classic1DModel Classic1DSpec
  Classic1DProofs Classic1DProofs2 ParallelProofs2 SweepModel SweepSpec SweepProofs SweepProofs2 SweepProofs3 SweepProofs4 SweepProofs6
  UnsplitModel UnsplitSpec UnsplitProofs UnsplitProofs2 UnsplitProofs3 CtuSpec CtuProofs CtuProofs2
  Unsplit3Model Unsplit3Spec Unsplit3Proofs Unsplit3Proofs2 Unsplit3Proofs3 Ctu3Spec Ctu3Proofs.

Ltac each_order H := unfold orders in H; cbn [In] in H; destruct H as [<-|[<-|[<-|[<-|[<-|[<-|[]]]]]]].
Ltac each_axis d := destruct d as [|[|[|d]]]; [| | |exfalso; lia].

Lemma axis_3 p e : In p orders -> (e < 3)%nat -> (axis p e < 3)%nat.
Proof. intros Hp He. each_order Hp; each_axis e; cbn; lia. Qed.
Lemma pick_length p ix : In p orders -> length (reordered p ix) = 3%nat.
Proof. intros Hp. each_order Hp; reflexivity. Qed.
Lemma pick_get p e ix : In p orders -> (e < 3)%nat -> get e (reordered p ix) = get (axis p e) ix.
Proof. intros Hp He. each_order Hp; each_axis e; reflexivity. Qed.
Lemma pick_put p e v ix : In p orders -> (e < 3)%nat -> length ix = 3%nat -> put e v (reordered p ix) = reordered p (put (axis p e) v ix).
Proof. intros Hp He HL. destruct ix as [|a [|b [|c [|]]]]; try discriminate HL. each_order Hp; each_axis e; reflexivity. Qed.
Lemma pick_lower p e ix : In p orders -> (e < 3)%nat -> length ix = 3%nat -> lower e (reordered p ix) = reordered p (lower (axis p e) ix).
Proof. intros Hp He HL. unfold lower. rewrite pick_get, pick_put by assumption. reflexivity. Qed.
Lemma pick_upper p e ix : In p orders -> (e < 3)%nat -> length ix = 3%nat -> upper e (reordered p ix) = reordered p (upper (axis p e) ix).
Proof. intros Hp He HL. unfold upper. rewrite pick_get, pick_put by assumption. reflexivity. Qed.
Lemma pick_shifted p e k ix : In p orders -> (e < 3)%nat -> length ix = 3%nat -> shifted e k (reordered p ix) = reordered p (shifted (axis p e) k ix).
Proof. intros Hp He HL. unfold shifted. rewrite pick_get, pick_put by assumption. reflexivity. Qed.
Lemma pick_across p e icoor : In p orders -> (e < 3)%nat -> (icoor = 2 \/ icoor = 3)%Z ->
  axis p (across e icoor) = across (axis p e) (turned_coor p icoor) /\ (across e icoor < 3)%nat.
Proof. intros Hp He Hc. destruct Hc as [-> | ->]; each_order Hp; each_axis e; cbn; split; lia. Qed.
Lemma rearranged_at p a m ix : In p orders -> length ix = 3%nat -> rearranged p a m (reordered p ix) = a m ix.
Proof. intros Hp HL. destruct ix as [|u [|v [|w [|]]]]; try discriminate HL. each_order Hp; reflexivity. Qed.
Lemma pick_onto p ix' : In p orders -> length ix' = 3%nat -> exists ix, length ix = 3%nat /\ reordered p ix = ix'.
Proof.
  intros Hp HL. exists (map (fun d => get (place d p) ix') [0; 1; 2]%nat). split; [reflexivity|].
  destruct ix' as [|u [|v [|w [|]]]]; try discriminate HL. each_order Hp; reflexivity.
Qed.
Lemma axis_onto p d : In p orders -> (d < 3)%nat -> exists e, (e < 3)%nat /\ axis p e = d.
Proof. intros Hp Hd. exists (place d p). each_order Hp; each_axis d; cbn; split; lia. Qed.
Lemma turned_other p icoor : (5 - turned_coor p icoor)%Z = turned_coor p (5 - icoor)%Z.
Proof. unfold turned_coor. destruct (cyclic p); lia. Qed.

Section X.
Variable undef : Q -> Q -> Z -> Q.
Variable S : msettings.
Variable rpt : nat -> rpt3solver.
Variable rptt : nat -> rptt3solver.
Variable p : list nat.
Hypothesis Hp : In p orders.
Variable trans : Z.
Notation T := (reordered_problem p S).
Notation neq := (n_neq S).
Notation naux := (n_naux S).
Notation g := (Z.of_nat (n_ng S)).
Notation pick := (reordered p).
Notation ax := (axis p).
Notation ns := (map ncells (n_bcs S)).
Hypothesis Hlen : length (n_bcs S) = 3%nat.
Hypothesis Hg : (2 <= n_ng S)%nat.
Hypothesis Hn : Forall (fun n => 1 <= n)%Z ns.
Hypothesis Hk : mcapa_in_aux S.
Variables aux aux' : arr Q.
(** Inside the ghosted array *)
Definition inb3 (ix : list Z) : Prop := length ix = 3%nat /\ forall d, (d < 3)%nat -> (0 <= get d ix < nth d ns 0 + 2 * g)%Z.
Definition agree3 (n : nat) (x x' : arr Q) : Prop := forall c ix, (0 <= c < Z.of_nat n)%Z -> inb3 ix -> x' c (pick ix) = x c ix.
Hypothesis Ha : agree3 naux aux aux'.
Variables x x' : arr Q.
Hypothesis Hx : agree3 neq x x'.

Lemma cv3 n y y' ix : agree3 n y y' -> inb3 ix -> cell_vec n y' (pick ix) = cell_vec n y ix.
Proof. intros H I. unfold cell_vec. apply vec_ext. intros c Hc. apply H; assumption. Qed.
Lemma ratio3_x e ix : inb3 ix -> cell_ratio T e aux' (pick ix) = cell_ratio S (ax e) aux ix.
Proof.
  intros I. unfold cell_ratio, reordered_problem. cbn [n_capa n_dt n_delta].
  destruct (n_capa S) as [k|] eqn:E; [|reflexivity]. rewrite (Ha k ix); [reflexivity|exact (Hk k E)|exact I].
Qed.
Lemma capacity3_x ix : inb3 ix -> mcapacity T aux' (pick ix) = mcapacity S aux ix.
Proof. intro I. unfold mcapacity, reordered_problem. cbn [n_capa]. destruct (n_capa S) as [k|] eqn:E; [|reflexivity]. apply Ha; [exact (Hk k E)|exact I]. Qed.
Lemma face3_x e ix : (e < 3)%nat -> inb3 ix -> inb3 (lower (ax e) ix) -> at_face T aux' x' e (pick ix) = at_face S aux x (ax e) ix.
Proof.
  intros He I J. unfold at_face. rewrite (pick_lower p e ix Hp He (proj1 I)). unfold reordered_problem. cbn [n_neq n_naux n_rpn].
  rewrite (cv3 neq x x' _ Hx I), (cv3 neq x x' _ Hx J), (cv3 naux aux aux' _ Ha I), (cv3 naux aux aux' _ Ha J). reflexivity.
Qed.
Lemma dot3_x e ix ix' w : (e < 3)%nat -> inb3 ix -> inb3 (lower (ax e) ix) -> inb3 ix' -> inb3 (lower (ax e) ix') ->
  dot T aux' x' e (pick ix) (pick ix') w = dot S aux x (ax e) ix ix' w.
Proof.
  intros He I J I' J'. unfold dot. change (n_neq T) with neq. apply zsum_ext. intros m Hm. unfold face_wave.
  rewrite (face3_x e ix He I J), (face3_x e ix' He I' J'). reflexivity.
Qed.
Definition beside (d : nat) (ix : list Z) : Prop := inb3 ix /\ inb3 (lower d ix) /\ inb3 (lower d (lower d ix)) /\ inb3 (upper d ix).
Lemma lower_upper3 d ix : (d < length ix)%nat -> lower d (upper d ix) = ix.
Proof. intros H. unfold lower, upper. rewrite get_put, put_put by exact H. replace (get d ix + 1 - 1)%Z with (get d ix) by lia. apply put_get. Qed.
Lemma limited3_x e ix m w : (e < 3)%nat -> beside (ax e) ix ->
  limited_wave undef T aux' x' e (pick ix) m w = limited_wave undef S aux x (ax e) ix m w.
Proof.
  intros He (I & J & K & L). unfold limited_wave. cbv zeta. change (n_nw T) with (n_nw S). change (n_mthlim T) with (n_mthlim S).
  rewrite (dot3_x e ix ix w He I J I J). unfold face_wave. rewrite (face3_x e ix He I J).
  rewrite (pick_lower p e ix Hp He (proj1 I)), (pick_upper p e ix Hp He (proj1 I)).
  rewrite (dot3_x e _ ix w He J K I J).
  rewrite (dot3_x e ix _ w He I J L); [reflexivity|]. rewrite lower_upper3; [exact I|]. rewrite (proj1 I). apply axis_3; assumption.
Qed.
Lemma correction3_x e ix m : (e < 3)%nat -> beside (ax e) ix ->
  correction undef T aux' x' e (pick ix) m = correction undef S aux x (ax e) ix m.
Proof.
  intros He A. pose proof A as (I & J & _). unfold correction. cbv zeta. change (n_nw T) with (n_nw S). change (n_fwave T) with (n_fwave S).
  rewrite (pick_lower p e ix Hp He (proj1 I)), (ratio3_x e ix I), (ratio3_x e _ J).
  apply zsum_ext. intros w Hw. rewrite (face3_x e ix He I J), (limited3_x e ix m w He A). reflexivity.
Qed.
(** The nine cells around *)
Definition ringed (d : nat) (ix : list Z) : Prop :=
  length ix = 3%nat /\ forall a b, In a [-1; 0; 1]%Z -> In b [-1; 0; 1]%Z -> inb3 (shifted (next (next d)) b (shifted (next d) a ix)).
Lemma around3_x e ix : (e < 3)%nat -> ringed (ax e) ix -> turned p (Ctu3Spec.around T aux' e (pick ix)) = Ctu3Spec.around S aux (ax e) ix.
Proof.
  intros He [HL R]. assert (Hv := R). unfold Ctu3Spec.around. change (n_naux T) with naux.
  assert (V : forall a b, In a [-1; 0; 1]%Z -> In b [-1; 0; 1]%Z ->
    cell_vec naux aux' (shifted (next (next e)) b (shifted (next e) a (pick ix))) =
    (if cyclic p then cell_vec naux aux (shifted (next (next (ax e))) b (shifted (next (ax e)) a ix))
     else cell_vec naux aux (shifted (next (next (ax e))) a (shifted (next (ax e)) b ix)))).
  { intros a b A B. pose proof (R a b A B) as R1. pose proof (R b a B A) as R2. rewrite <- (cv3 naux aux aux' _ Ha R1), <- (cv3 naux aux aux' _ Ha R2).
    clear - Hp He HL. destruct ix as [|u [|v [|w [|]]]]; try discriminate HL.
    each_order Hp; each_axis e; reflexivity. }
  cbn [map fst snd]. rewrite !V by (cbn; tauto). unfold turned. destruct (cyclic p); reflexivity.
Qed.
Definition face_ok (d : nat) (ix : list Z) : Prop := beside d ix /\ ringed d ix /\ ringed d (lower d ix).
Notation rpt' := (reordered_rpt p rpt).
Notation rptt' := (reordered_rptt p rptt).
Lemma increment_x e ix icoor imp : (e < 3)%nat -> face_ok (ax e) ix ->
  increment T rpt' aux' x' e (pick ix) icoor imp = increment S rpt aux x (ax e) ix (turned_coor p icoor) imp.
Proof.
  intros He ((I & J & _) & R1 & R2). unfold increment, reordered_rpt. rewrite (pick_lower p e ix Hp He (proj1 I)).
  rewrite !around3_x, (face3_x e ix) by assumption. change (n_neq T) with neq. rewrite (cv3 neq x x' _ Hx I), (cv3 neq x x' _ Hx J). reflexivity.
Qed.
Lemma split_correction_x e ix icoor imp : (e < 3)%nat -> face_ok (ax e) ix ->
  split_correction undef T rpt' aux' x' e (pick ix) icoor imp = split_correction undef S rpt aux x (ax e) ix (turned_coor p icoor) imp.
Proof.
  intros He (B & R1 & R2). pose proof B as (I & J & _). unfold split_correction, reordered_rpt. rewrite (pick_lower p e ix Hp He (proj1 I)).
  rewrite !around3_x by assumption. change (n_neq T) with neq. change (n_naux T) with naux. rewrite (cv3 neq x x' _ Hx I), (cv3 neq x x' _ Hx J). f_equal.
  apply vec_ext. intros c Hc. rewrite correction3_x by assumption. reflexivity.
Qed.
Lemma twice_x e ix icoor imp top : (e < 3)%nat -> face_ok (ax e) ix ->
  twice undef T rpt' rptt' trans aux' x' e (pick ix) icoor imp top = twice undef S rpt rptt trans aux x (ax e) ix (turned_coor p icoor) imp top.
Proof.
  intros He F. pose proof F as (B & R1 & R2). pose proof B as (I & J & _). unfold twice, reordered_rptt. rewrite (pick_lower p e ix Hp He (proj1 I)).
  rewrite !around3_x by assumption. change (n_neq T) with neq. rewrite (cv3 neq x x' _ Hx I), (cv3 neq x x' _ Hx J). f_equal.
  apply vec_ext. intros c Hc. unfold to_edge. cbv zeta. rewrite increment_x, split_correction_x, turned_other by assumption. reflexivity.
Qed.
Lemma piece_x e ix icoor imp up layer m : (e < 3)%nat -> (icoor = 2 \/ icoor = 3)%Z -> face_ok (ax e) ix ->
  piece undef T rpt' rptt' trans aux' x' e (pick ix) icoor imp up layer m = piece undef S rpt rptt trans aux x (ax e) ix (turned_coor p icoor) imp up layer m.
Proof.
  intros He Hc F. unfold piece. cbv zeta. rewrite !twice_x, increment_x, split_correction_x by assumption.
  change (n_dt T) with (n_dt S). change (n_delta T (across e (5 - icoor))) with (n_delta S (ax (across e (5 - icoor)))).
  destruct (pick_across p e (5 - icoor) Hp He ltac:(lia)) as [E _]. rewrite E, <- turned_other. reflexivity.
Qed.
Definition cell_ok (d : nat) (ix : list Z) : Prop := face_ok d ix /\ face_ok d (upper d ix).
Lemma leaves3_x e ix icoor up layer m : (e < 3)%nat -> (icoor = 2 \/ icoor = 3)%Z -> cell_ok (ax e) ix ->
  leaves undef T rpt' rptt' trans aux' x' e (pick ix) icoor up layer m = leaves undef S rpt rptt trans aux x (ax e) ix (turned_coor p icoor) up layer m.
Proof.
  intros He Hc (A & B). pose proof A as ((I & _) & _). unfold leaves. rewrite (ratio3_x e ix I), (pick_upper p e ix Hp He (proj1 I)), !piece_x by assumption. reflexivity.
Qed.
Definition through_ok (d : nat) (icoor : Z) (ix : list Z) : Prop :=
  length ix = 3%nat /\ forall k, In k [-1; 0; 1]%Z -> let y := shifted (across d (5 - icoor)) k ix in cell_ok d y /\ cell_ok d (lower (across d icoor) y).
Lemma through_x e icoor ix m : (e < 3)%nat -> (icoor = 2 \/ icoor = 3)%Z -> through_ok (ax e) (turned_coor p icoor) ix ->
  through undef T rpt' rptt' trans aux' x' e icoor (pick ix) m = through undef S rpt rptt trans aux x (ax e) (turned_coor p icoor) ix m.
Proof.
  intros He Hc [HL R]. unfold through. cbv zeta.
  destruct (pick_across p e (5 - icoor) Hp He ltac:(lia)) as [E1 L1]. destruct (pick_across p e icoor Hp He Hc) as [E2 L2].
  assert (P : forall k, In k [-1; 0; 1]%Z ->
    leaves undef T rpt' rptt' trans aux' x' e (shifted (across e (5 - icoor)) (- k) (pick ix)) icoor false k m +
    leaves undef T rpt' rptt' trans aux' x' e (lower (across e icoor) (shifted (across e (5 - icoor)) (- k) (pick ix))) icoor true k m =
    leaves undef S rpt rptt trans aux x (ax e) (shifted (across (ax e) (5 - turned_coor p icoor)) (- k) ix) (turned_coor p icoor) false k m +
    leaves undef S rpt rptt trans aux x (ax e) (lower (across (ax e) (turned_coor p icoor)) (shifted (across (ax e) (5 - turned_coor p icoor)) (- k) ix)) (turned_coor p icoor) true k m).
  { intros k Kk. destruct (R (- k)%Z) as [C1 C2]; [cbn in Kk |- *; lia|].
    assert (HL' : length (shifted (across (ax e) (5 - turned_coor p icoor)) (- k) ix) = 3%nat) by (unfold shifted; rewrite put_length; exact HL).
    rewrite pick_shifted, E1, <- turned_other by assumption. rewrite pick_lower, E2 by assumption. rewrite !leaves3_x by assumption. reflexivity. }
  rewrite !P by (cbn; tauto). reflexivity.
Qed.
Definition change_ok (d : nat) (icoor : Z) (ix : list Z) : Prop := inb3 ix /\ through_ok d icoor ix /\ through_ok d icoor (upper (across d icoor) ix).
Lemma change3_x e icoor ix m : (e < 3)%nat -> (icoor = 2 \/ icoor = 3)%Z -> change_ok (ax e) (turned_coor p icoor) ix ->
  across_change undef T rpt' rptt' trans aux' x' e icoor (pick ix) m = across_change undef S rpt rptt trans aux x (ax e) (turned_coor p icoor) ix m.
Proof.
  intros He Hc (I & A & B). unfold across_change. destruct (Z.eqb trans 0); [reflexivity|].
  destruct (pick_across p e icoor Hp He Hc) as [E2 L2].
  rewrite (capacity3_x ix I), pick_upper, E2, !through_x by (assumption || exact (proj1 I)).
  change (n_dt T) with (n_dt S). change (n_delta T (across e icoor)) with (n_delta S (ax (across e icoor))). rewrite E2. reflexivity.
Qed.
Lemma inside_ok d icoor ix : (d < 3)%nat -> (icoor = 2 \/ icoor = 3)%Z -> interior3 S ix -> change_ok d icoor ix.
Proof.
  intros Hd Hc [HL HI]. destruct ix as [|u [|v [|w [|]]]]; try discriminate HL.
  pose proof (HI 0%nat ltac:(lia)) as I0. pose proof (HI 1%nat ltac:(lia)) as I1. pose proof (HI 2%nat ltac:(lia)) as I2. cbn [get] in I0, I1, I2.
  assert (IN : forall a b c, (u - 2 <= a <= u + 2)%Z -> (v - 2 <= b <= v + 2)%Z -> (w - 2 <= c <= w + 2)%Z -> inb3 [a; b; c]).
  { intros a b c A B C. split; [reflexivity|]. intros e He. each_axis e; cbn [get]; lia. }
  assert (RI : forall d' a b c, (d' < 3)%nat -> (u - (if Nat.eqb d' 0 then 2 else 1) <= a <= u + (if Nat.eqb d' 0 then 2 else 1))%Z -> (v - (if Nat.eqb d' 1 then 2 else 1) <= b <= v + (if Nat.eqb d' 1 then 2 else 1))%Z ->
    (w - (if Nat.eqb d' 2 then 2 else 1) <= c <= w + (if Nat.eqb d' 2 then 2 else 1))%Z -> ringed d' [a; b; c]).
  { intros d' a b c Hd' A B C. split; [reflexivity|]. intros s t Hs Ht. cbn [In] in Hs, Ht.
    each_axis d'; unfold shifted; cbn [next put get Nat.eqb] in *; apply IN; lia. }
  assert (CO : forall a b c, (u - (if Nat.eqb d 0 then 0 else 1) <= a <= u + (if Nat.eqb d 0 then 0 else 1))%Z -> (v - (if Nat.eqb d 1 then 0 else 1) <= b <= v + (if Nat.eqb d 1 then 0 else 1))%Z ->
    (w - (if Nat.eqb d 2 then 0 else 1) <= c <= w + (if Nat.eqb d 2 then 0 else 1))%Z -> cell_ok d [a; b; c]).
  { intros a b c A B C. unfold cell_ok, face_ok, beside, upper, lower.
    each_axis d; cbn [put get Nat.eqb] in *;
      (split; (split; [split; [apply IN; lia|split; [apply IN; lia|split; apply IN; lia]]|split; apply RI; cbn [Nat.eqb]; lia])). }
  split; [apply IN; lia|]. unfold through_ok.
  destruct Hc as [-> | ->]; change (5 - 2)%Z with 3%Z; change (5 - 3)%Z with 2%Z; each_axis d; unfold upper, lower, shifted; cbn [across Z.eqb Pos.eqb next put get length] in *;
    (split; (split; [reflexivity|]; intros k Kk; cbn [In] in Kk; cbv zeta; cbn [across Z.eqb Pos.eqb next put get]; split; apply CO; cbn [Nat.eqb]; lia)).
Qed.

(** Sweeps *)
Lemma T3_len : length (n_bcs T) = 3%nat.
Proof. cbn [reordered_problem n_bcs]. pose proof Hlen as H. destruct (n_bcs S) as [|D1 [|D2 [|D3 [|]]]]; try discriminate H. clear - Hp. each_order Hp; reflexivity. Qed.
Lemma T3_mx e : (e < 3)%nat -> nth e (map ncells (n_bcs T)) 0%Z = nth (ax e) ns 0%Z.
Proof.
  intro He. cbn [reordered_problem n_bcs]. pose proof Hlen as H. destruct (n_bcs S) as [|D1 [|D2 [|D3 [|]]]]; try discriminate H.
  clear - Hp He. each_order Hp; each_axis e; reflexivity.
Qed.
Lemma n3_nonneg : Forall (fun n => 0 <= n)%Z ns /\ Forall (fun n => 0 <= n)%Z (map ncells (n_bcs T)).
Proof.
  assert (A : Forall (fun n => 0 <= n)%Z ns) by (apply (Forall_impl _ (fun n (H : (1 <= n)%Z) => Z.le_trans 0 1 n Z.le_0_1 H) Hn)). split; [exact A|].
  apply Forall_forall. intros n Hin. apply (In_nth _ _ 0%Z) in Hin. destruct Hin as (e & He & <-). rewrite map_length, T3_len in He. rewrite T3_mx by exact He.
  rewrite Forall_forall in A. apply A. apply nth_In. rewrite map_length, Hlen. apply axis_3; assumption.
Qed.
Lemma pick_interior ix : interior3 S ix -> interior3 T (pick ix).
Proof.
  intros [HL HI]. split; [apply pick_length; exact Hp|]. intros e He. rewrite T3_mx, pick_get by assumption. change (n_ng T) with (n_ng S).
  apply HI. apply axis_3; assumption.
Qed.
Lemma slice3_x n y y' e ix c i : agree3 n y y' -> (e < 3)%nat -> length ix = 3%nat -> (0 <= c < Z.of_nat n)%Z -> inb3 (put (ax e) (i + g - 1)%Z ix) ->
  slice (n_ng S) e (put e 0 (pick ix)) y' c i = slice (n_ng S) (ax e) (put (ax e) 0 ix) y c i.
Proof. intros H He HL Hc I. unfold slice. rewrite !put_put, pick_put by assumption. apply H; assumption. Qed.
Lemma put_inb3 d ix i : (d < 3)%nat -> inb3 ix -> (1 - g <= i <= nth d ns 0 + g)%Z -> inb3 (put d (i + g - 1)%Z ix).
Proof.
  intros Hd (HL & I) Hi. split; [rewrite put_length; exact HL|]. intros e He. destruct (Nat.eq_dec e d) as [-> | N].
  - rewrite get_put by lia. lia.
  - rewrite get_put_other by congruence. apply I. exact He.
Qed.
Lemma line3_x e ix m : (e < 3)%nat -> inb3 ix -> (0 <= m < Z.of_nat neq)%Z ->
  let d := ax e in
  let i := (get d ix - g + 1)%Z in (1 <= i <= nth d ns 0)%Z ->
  line_change T e (line_flux undef T e (put e 0 (pick ix)) aux' x') (slice (n_ng S) e (put e 0 (pick ix)) aux') (x' m (pick ix)) m i =
  line_change S d (line_flux undef S d (put d 0 ix) aux x) (slice (n_ng S) d (put d 0 ix) aux) (x m ix) m i.
Proof.
  intros He I Hm d i Hi. assert (Hd : (d < 3)%nat) by (apply axis_3; assumption). set (mx := nth d ns 0%Z) in *.
  set (s := slice (n_ng S) d (put d 0 ix) x). set (a := slice (n_ng S) d (put d 0 ix) aux).
  set (s' := slice (n_ng S) e (put e 0 (pick ix)) x'). set (a' := slice (n_ng S) e (put e 0 (pick ix)) aux').
  set (D := line_dtdx S d a). set (D' := line_dtdx T e a').
  assert (SA : forall k c, (0 <= c < Z.of_nat naux)%Z -> (1 - g <= k <= mx + g)%Z -> a' c k = a c k).
  { intros k c Hc Hk'. apply (slice3_x naux aux aux'); [exact Ha|exact He|exact (proj1 I)|exact Hc|]. apply put_inb3; assumption. }
  assert (SQ : forall k c, (0 <= c < Z.of_nat neq)%Z -> (1 - g <= k <= mx + g)%Z -> s' c k = s c k).
  { intros k c Hc Hk'. apply (slice3_x neq x x'); [exact Hx|exact He|exact (proj1 I)|exact Hc|]. apply put_inb3; assumption. }
  assert (DE : forall k, (1 - g <= k <= mx + g)%Z -> D' k = D k).
  { intros k Hk'. unfold D, D', line_dtdx, reordered_problem. cbn [n_capa n_dt n_delta]. fold d.
    destruct (n_capa S) as [z|] eqn:E; [|reflexivity]. rewrite (SA k z (Hk z E) Hk'). reflexivity. }
  assert (N : forall k, (1 <= k <= mx + 1)%Z -> near neq naux 2 s' D' a' k s D a k).
  { intros k Hk' j Hj. split; [|split]; [apply vec_ext; intros; apply SQ|apply vec_ext; intros; apply SA|apply DE]; try assumption; lia. }
  pose proof (reach_1 (n_nw S) (n_order S) (n_mthlim S)) as R1.
  assert (R2 : (reach (n_nw S) (n_order S) (n_mthlim S) <= 2)%Z) by (unfold reach; destruct (small_stencil _ _ _); lia).
  unfold line_change, line_flux. cbv zeta. rewrite (T3_mx e He).
  change (n_neq T) with neq. change (n_nw T) with (n_nw S). change (n_naux T) with naux. change (n_ng T) with (n_ng S). change (n_fwave T) with (n_fwave S).
  change (n_order T) with (n_order S). change (n_mthlim T) with (n_mthlim S). change (n_rpn T e) with (n_rpn S d). change (n_capa T) with (n_capa S).
  change (n_dt T) with (n_dt S). change (n_delta T e) with (n_delta S d).
  fold d. fold mx. fold s a s' a'. fold D D'. rewrite !qadd_at by lia.
  destruct (near_R neq naux (n_rpn S d) _ _ _ _ _ _ i i (near_weaken _ _ _ _ _ _ _ _ 2 1 i i ltac:(lia) (N i ltac:(lia)))) as (_ & _ & _ & A1).
  destruct (near_R neq naux (n_rpn S d) _ _ _ _ _ _ (i + 1)%Z (i + 1)%Z (near_weaken _ _ _ _ _ _ _ _ 2 1 (i + 1) (i + 1) ltac:(lia) (N (i + 1)%Z ltac:(lia)))) as (_ & _ & A2 & _).
  assert (E2 : forall k, (1 <= k <= mx + 1)%Z ->
     fadd (flux2 neq (n_nw S) naux g mx (n_fwave S) (n_order S) (-1) (n_mthlim S) undef (n_rpn S d) no_rpt s' D' a' a' a') m k =
     fadd (flux2 neq (n_nw S) naux g mx (n_fwave S) (n_order S) (-1) (n_mthlim S) undef (n_rpn S d) no_rpt s D a a a) m k).
  { intros k Hk'. apply near_fadd; try lia. apply (near_weaken _ _ _ _ _ _ _ _ 2); [exact R2|apply N; exact Hk']. }
  rewrite A1, A2, !E2, (DE i) by lia. rewrite (Hx m ix Hm I).
  destruct (n_capa S) as [z|] eqn:Ek; [|reflexivity]. rewrite (SA i z (Hk z Ek)) by lia. reflexivity.
Qed.
Lemma interior_inb ix : interior3 S ix -> inb3 ix.
Proof. intros [HL HI]. split; [exact HL|]. intros d Hd. specialize (HI d Hd). lia. Qed.
Lemma value3_x e ix m : (e < 3)%nat -> interior3 S ix -> (0 <= m < Z.of_nat neq)%Z ->
  sweep_value undef T 1 e aux' x' (x' m (pick ix)) m (pick ix) = sweep_value undef S 1 (ax e) aux x (x m ix) m ix.
Proof.
  intros He IX Hm. pose proof (axis_3 p e Hp He) as Hd. destruct n3_nonneg as [N1 N2]. unfold sweep_value.
  rewrite (interior3_swept S ltac:(lia) Hlen N1) by (assumption || lia). rewrite (interior3_swept T ltac:(cbn [reordered_problem n_ng]; lia) T3_len N2) by (lia || (apply pick_interior; exact IX)).
  change (n_ng T) with (n_ng S). rewrite pick_get by assumption. apply line3_x; [exact He|apply interior_inb; exact IX|exact Hm|].
  destruct IX as [_ HI]. specialize (HI _ Hd). lia.
Qed.

(** One unsplit step on ghosted arrays *)
Variables stale stale' : nat -> list Z -> leftovers.
Hypothesis Hdes : described (n_order S) trans.
Lemma step3_x m ix : (0 <= m < Z.of_nat neq)%Z -> interior3 S ix ->
  fst (step3 undef T rpt' rptt' stale' trans aux' x' x') m (pick ix) == fst (step3 undef S rpt rptt stale trans aux x x) m ix.
Proof.
  intros Hm IX. destruct n3_nonneg as [N1 N2].
  rewrite (step3_value undef S rpt rptt stale trans ltac:(lia) aux x Hlen N1 1 m ix ltac:(lia) IX).
  rewrite (step3_value undef T rpt' rptt' stale' trans ltac:(cbn [reordered_problem n_ng]; lia) aux' x' T3_len N2 1 m (pick ix) ltac:(lia) (pick_interior ix IX)).
  assert (TT : forall e, (e < 3)%nat -> u3_trans undef T rpt' rptt' stale' trans aux' x' e m (pick ix) == u3_trans undef S rpt rptt stale trans aux x (ax e) m ix).
  { intros e He. pose proof (axis_3 p e Hp He) as Hd.
    rewrite (trans3_R undef T rpt' rptt' stale' trans aux' x' Hdes e m (pick ix) He (pick_interior ix IX)), (trans3_R undef S rpt rptt stale trans aux x Hdes (ax e) m ix Hd IX).
    assert (C2 : (turned_coor p 2 = 2 \/ turned_coor p 2 = 3)%Z) by (unfold turned_coor; destruct (cyclic p); lia).
    assert (C3 : (turned_coor p 3 = 2 \/ turned_coor p 3 = 3)%Z) by (unfold turned_coor; destruct (cyclic p); lia).
    rewrite !change3_x by (auto using inside_ok). unfold turned_coor. destruct (cyclic p); change (5 - 2)%Z with 3%Z; change (5 - 3)%Z with 2%Z; ring. }
  rewrite !TT, !value3_x by (assumption || lia). rewrite (Hx m ix Hm (interior_inb ix IX)).
  generalize (fun d => sweep_value undef S 1 d aux x (x m ix) m ix) as V. generalize (fun d => u3_trans undef S rpt rptt stale trans aux x d m ix) as U. intros U V.
  revert U V. clear - Hp. each_order Hp; intros U V; cbn [axis nth]; ring.
Qed.
End X.
