(** Proofs about parallel runs in more dimensions, part 3: the unsplit step in two dimensions. *)
From Verif Require Import Base BCModel BCSpec BCProofs LimiterModel LimiterProofs Classic1DModel Classic1DSpec
  Classic1DProofs Classic1DProofs2 ParallelModel ParallelProofs2 SweepModel SweepSpec SweepProofs SweepProofs2 SweepProofs3
  UnsplitModel UnsplitSpec Par2Model Par2Proofs Par2Proofs2.

Lemma zrange_app lo a : forall b, zrange lo (a + b) = zrange lo a ++ zrange (lo + Z.of_nat a) b.
Proof.
  induction b as [|b IH]; [rewrite Nat.add_0_r; unfold zrange at 3; cbn [seq map]; rewrite app_nil_r; reflexivity|].
  rewrite Nat.add_succ_r, !zrange_S, IH, <- app_assoc. do 3 f_equal. lia.
Qed.
Lemma fold_idle {A B} (f : A -> B -> A) : forall l v, (forall x, In x l -> forall w, f w x = w) -> fold_left f l v = v.
Proof.
  induction l as [|x l IH]; intros v H; cbn [fold_left]; [reflexivity|]. rewrite (H x (or_introl eq_refl)). apply IH. intros y Hy. apply H. right. exact Hy.
Qed.
Lemma fold_three {A} (f : A -> Z -> A) lo n r v : (lo <= r - 1)%Z -> (r + 1 < lo + Z.of_nat n)%Z ->
  (forall w j, (j < r - 1 \/ r + 1 < j)%Z -> f w j = w) ->
  fold_left f (zrange lo n) v = f (f (f v (r - 1)%Z) r) (r + 1)%Z.
Proof.
  intros H1 H2 H. replace n with (Z.to_nat (r - 1 - lo) + (3 + (n - Z.to_nat (r - 1 - lo) - 3)))%nat by lia.
  rewrite !zrange_app, !fold_left_app. rewrite (fold_idle f (zrange lo _)) by (intros x Hx w; apply H; apply zrange_in in Hx; lia).
  rewrite (fold_idle f (zrange _ (n - _ - 3))) by (intros x Hx w; apply H; apply zrange_in in Hx; lia).
  unfold zrange. cbn [seq map fold_left]. rewrite ?Z.add_0_r. change (Z.of_nat 0) with 0%Z. change (Z.of_nat 1) with 1%Z. change (Z.of_nat 2) with 2%Z. rewrite ?Z.add_0_r. replace (lo + Z.of_nat (Z.to_nat (r - 1 - lo)))%Z with (r - 1)%Z by lia.
  replace (r - 1 + 1)%Z with r by lia. replace (r - 1 + 2)%Z with (r + 1)%Z by lia. reflexivity.
Qed.
Lemma box_grow S0 e e' ix : (e <= e')%Z -> box S0 e 0 ix -> box S0 e' 0 ix.
Proof.
  intros He [B1 B2]. split; [exact B1|]. intros j Hj. specialize (B2 j Hj). replace (Nat.ltb j 0) with false in * by reflexivity. lia.
Qed.
Lemma t_sweep_at undef S trans d auxbc q st m ix : fst (t_sweep undef S trans d auxbc q st) m ix =
  fold_left (fun v j => t_change S d (t_flux undef S trans d auxbc q j) auxbc j v m ix)
    (zrange 0 (Z.to_nat (nth (1 - d) (map ncells (n_bcs S)) 0%Z + 2))) (fst st m ix).
Proof.
  unfold t_sweep. generalize (zrange 0 (Z.to_nat (nth (1 - d) (map ncells (n_bcs S)) 0%Z + 2))). intro l. revert st.
  induction l as [|j l IH]; intro st; cbn [fold_left]; [reflexivity|]. rewrite IH. reflexivity.
Qed.

Section U.
Variable undef : Q -> Q -> Z -> Q.
Variable S : msettings.
Variable bs : list (Z * Z).
Variable trans : Z.
Notation T := (mlocal S bs).
Notation neq := (n_neq S).
Notation g := (Z.of_nat (n_ng S)).
Notation ns := (map ncells (n_bcs S)).
Notation ns' := (map ncells (n_bcs (mlocal S bs))).
Notation o j := (start bs j).
Hypothesis Hg2 : (2 <= n_ng S)%nat.
Hypothesis H2 : length bs = 2%nat.
Hypothesis HL : length bs = length (n_bcs S).
Hypothesis HB : forall j, (j < length bs)%nat -> (0 <= fst (nth j bs (0, 0)) /\ fst (nth j bs (0, 0)) < snd (nth j bs (0, 0)) /\ snd (nth j bs (0, 0)) <= nth j ns 0)%Z.
Hypothesis Hk : mcapa_in_aux S.
Variables aux' aux x' x : arr Q.
Hypothesis Wa : window S bs (n_naux S) g 0 aux' aux.
Hypothesis Wx : window S bs neq g 0 x' x.

Lemma Hg1 : (1 <= n_ng S)%nat. Proof. lia. Qed.
Lemma window_row n a' a d j i m : window S bs n g 0 a' a -> (0 <= m < Z.of_nat n)%Z -> (d < 2)%nat ->
  (1 - g <= j <= nth (1 - d) ns' 0 + g)%Z -> (1 - g <= i <= nth d ns' 0 + g)%Z ->
  t_row T d j a' m i = t_row S d (j + o (1 - d)) a m (i + o d).
Proof.
  intros W Hm Hd Hj Hi. unfold t_row, slice. cbn [mlocal n_ng]. rewrite (W m _ Hm).
  - rewrite !moved_put by (rewrite ?put_length; cbn [length]; lia).
    assert (M0 : moved bs [0; 0]%Z = [o 0; o 1]).
    { destruct bs as [|b0 [|b1 [|]]]; cbn [length] in H2; try lia. unfold moved, start. cbn. rewrite !Z.add_0_r. reflexivity. }
    rewrite M0. f_equal. destruct d as [|[|d]]; [| |lia]; cbn [Nat.sub put]; match goal with |- [?u; ?w] = [?u'; ?w'] => replace u' with u by lia; replace w' with w by lia; reflexivity end.
  - split; [rewrite !put_length, (T_length S bs Hg1 HL); cbn [length]; lia|]. intros e He. rewrite (T_length S bs Hg1 HL) in He.
    cbn [Nat.ltb Nat.leb]. cbn [mlocal n_ng]. destruct (Nat.eq_dec e d) as [E|N].
    + subst e. rewrite get_put by (rewrite put_length; cbn [length]; lia). lia.
    + rewrite get_put_other by lia. replace e with (1 - d)%nat by lia. rewrite get_put by (cbn [length]; lia). lia.
Qed.
Lemma row_near d j e : (d < 2)%nat -> (2 - g <= j <= nth (1 - d) ns' 0 + g - 1)%Z -> (1 <= e <= nth d ns' 0 + 1)%Z ->
  near neq (n_naux S) (reach (n_nw S) (n_order S) (n_mthlim S)) (t_row T d j x') (line_dtdx T d (t_row T d j aux')) (t_row T d j aux') e
    (t_row S d (j + o (1 - d)) x) (line_dtdx S d (t_row S d (j + o (1 - d)) aux)) (t_row S d (j + o (1 - d)) aux) (e + o d).
Proof.
  intros Hd Hj He k Hk'. assert (R2 : (reach (n_nw S) (n_order S) (n_mthlim S) <= 2)%Z) by (unfold reach; destruct (small_stencil _ _ _); lia).
  split; [|split].
  - apply vec_in. intros m Hm. rewrite (window_row neq x' x d j (e + k) m Wx Hm Hd) by lia. f_equal. lia.
  - apply vec_in. intros m Hm. rewrite (window_row (n_naux S) aux' aux d j (e + k) m Wa Hm Hd) by lia. f_equal. lia.
  - unfold line_dtdx. cbn [mlocal n_capa n_dt n_delta]. destruct (n_capa S) as [c|] eqn:Ec; [|reflexivity].
    pose proof (window_row (n_naux S) aux' aux d j (e + k) c Wa (Hk c Ec) Hd ltac:(lia) ltac:(lia)) as Sl.
    replace (e + o d + k)%Z with (e + k + o d)%Z by lia. rewrite <- Sl. reflexivity.
Qed.
Lemma window_t_change d k v m ix : (d < 2)%nat -> (-1 <= k <= 1)%Z -> (0 <= m < Z.of_nat neq)%Z -> box T 0 0 ix ->
  let r' := (get (1 - d) ix - g + 1)%Z in let r := (get (1 - d) (moved bs ix) - g + 1)%Z in
  t_change T d (t_flux undef T trans d aux' x' (r' + k)) aux' (r' + k) v m ix =
  t_change S d (t_flux undef S trans d aux x (r + k)) aux (r + k) v m (moved bs ix).
Proof.
  intros Hd Hk1 Hm B. cbv zeta. pose proof (box_len S bs Hg1 HL _ _ _ B) as Hlen.
  assert (Bd : forall e, (e < 2)%nat -> (g <= get e ix < g + nth e ns' 0)%Z).
  { intros e He. destruct B as [_ B]. specialize (B e ltac:(rewrite (T_length S bs Hg1 HL); lia)). cbn [Nat.ltb Nat.leb] in B. cbn [mlocal n_ng n_bcs] in *. lia. }
  pose proof (Bd d Hd) as Bi. pose proof (Bd (1 - d)%nat ltac:(lia)) as Br. pose proof (fits S bs Hg1 HL HB d ltac:(lia)) as Fd. pose proof (fits S bs Hg1 HL HB (1 - d)%nat ltac:(lia)) as Fr.
  unfold t_change. cbv zeta. cbn [mlocal n_ng n_dt n_delta n_capa]. change (map ncells (local_bcs (n_bcs S) bs)) with ns'.
  rewrite !get_moved by lia.
  set (i' := (get d ix - g + 1)%Z). replace (o d + get d ix - g + 1)%Z with (i' + o d)%Z by (unfold i'; lia).
  set (r' := (get (1 - d) ix - g + 1)%Z). replace (o (1 - d) + get (1 - d) ix - g + 1)%Z with (r' + o (1 - d))%Z by (unfold r'; lia).
  assert (Hi' : (1 <= i' <= nth d ns' 0)%Z) by (unfold i'; lia). assert (Hr' : (1 <= r' <= nth (1 - d) ns' 0)%Z) by (unfold r'; lia).
  rewrite !in_slice_true by lia.
  set (F' := t_flux undef T trans d aux' x' (r' + k)). set (F := t_flux undef S trans d aux x (r' + o (1 - d) + k)).
  assert (N : forall e, (1 <= e <= nth d ns' 0 + 1)%Z ->
    near neq (n_naux S) (reach (n_nw S) (n_order S) (n_mthlim S)) (t_row T d (r' + k) x') (line_dtdx T d (t_row T d (r' + k) aux')) (t_row T d (r' + k) aux') e
    (t_row S d (r' + o (1 - d) + k) x) (line_dtdx S d (t_row S d (r' + o (1 - d) + k) aux)) (t_row S d (r' + o (1 - d) + k) aux) (e + o d)).
  { intros e He. replace (r' + o (1 - d) + k)%Z with (r' + k + o (1 - d))%Z by lia. apply row_near; lia. }
  assert (N1 := N (i' + 1)%Z ltac:(lia)). replace (i' + 1 + o d)%Z with (i' + o d + 1)%Z in N1 by lia.
  assert (AR : forall s l, (-1 <= s <= 1)%Z -> (-1 <= l <= 1)%Z -> vec (n_naux S) (t_row T d (r' + k + s) aux') (i' + l) = vec (n_naux S) (t_row S d (r' + o (1 - d) + k + s) aux) (i' + o d + l)).
  { intros s l Hs Hl. apply vec_in. intros c Hc. rewrite (window_row (n_naux S) aux' aux d (r' + k + s) (i' + l) c Wa Hc Hd) by lia.
    replace (r' + o (1 - d) + k + s)%Z with (r' + k + s + o (1 - d))%Z by lia. f_equal. lia. }
  assert (Fe : forall e, (1 <= e <= nth d ns' 0 + 1)%Z -> fadd F' m e = fadd F m (e + o d)%Z).
  { intros e He. unfold F', F, t_flux.
    apply (window_fadd neq (n_nw S) (n_naux S) g (nth d ns' 0%Z) (nth d ns 0%Z) (n_fwave S) (n_order S) trans (n_mthlim S) undef (n_rpn S d)); [lia|exact Hm| |lia|lia].
    apply N. exact He. }
  assert (Fq : qadd F' m i' = qadd F m (i' + o d)%Z).
  { unfold F', F, t_flux.
    apply (window_qadd neq (n_nw S) (n_naux S) g (nth d ns' 0%Z) (nth d ns 0%Z) (n_fwave S) (n_order S) trans (n_mthlim S) undef (n_rpn S d)); [lia|lia| |exact N1].
    apply N. lia. }
  assert (Fg : gadd1 F' m i' = gadd1 F m (i' + o d)%Z /\ gadd2 F' m i' = gadd2 F m (i' + o d)%Z).
  { unfold F', F, t_flux.
    apply (window_gadd neq (n_nw S) (n_naux S) g (nth d ns' 0%Z) (nth d ns 0%Z) (n_fwave S) (n_order S) trans (n_mthlim S) undef (n_rpn S d)); [lia|lia|apply N; lia|exact N1| |].
    - intros _ l Hl. replace (r' + k - 1)%Z with (r' + k + -1)%Z by lia. replace (r' + o (1 - d) + k - 1)%Z with (r' + o (1 - d) + k + -1)%Z by lia. apply AR; lia.
    - intros _ l Hl. apply AR; lia. }
  destruct Fg as [G1 G2]. rewrite Fq, G1, G2, (Fe i'), (Fe (i' + 1)%Z) by lia. replace (i' + 1 + o d)%Z with (i' + o d + 1)%Z by lia.
  assert (Cap : forall y, match n_capa S with Some c => y / aux' c ix | None => y end = match n_capa S with Some c => y / aux c (moved bs ix) | None => y end).
  { intro y. destruct (n_capa S) as [c|] eqn:Ec; [|reflexivity]. rewrite (Wa c ix (Hk c Ec)); [reflexivity|].
    apply (box_grow _ 0); [lia|exact B]. }
  rewrite !Cap.
  replace (Z.eqb (r' + o (1 - d)) (r' + o (1 - d) + k)) with (Z.eqb r' (r' + k)) by lia.
  replace (Z.eqb (r' + o (1 - d)) (r' + o (1 - d) + k - 1)) with (Z.eqb r' (r' + k - 1)) by lia.
  replace (Z.eqb (r' + o (1 - d)) (r' + o (1 - d) + k + 1)) with (Z.eqb r' (r' + k + 1)) by lia.
  reflexivity.
Qed.
Lemma t_change_idle (S0 : msettings) d F a j v m ix : (j < (get (1 - d) ix - Z.of_nat (n_ng S0) + 1) - 1 \/ (get (1 - d) ix - Z.of_nat (n_ng S0) + 1) + 1 < j)%Z ->
  t_change S0 d F a j v m ix = v.
Proof.
  intro H. unfold t_change. cbv zeta. destruct (in_slice _ _ _); [|reflexivity].
  destruct (Z.eqb_spec (get (1 - d) ix - Z.of_nat (n_ng S0) + 1) j); [lia|]. destruct (Z.eqb_spec (get (1 - d) ix - Z.of_nat (n_ng S0) + 1) (j - 1)); [lia|].
  destruct (Z.eqb_spec (get (1 - d) ix - Z.of_nat (n_ng S0) + 1) (j + 1)); [lia|]. reflexivity.
Qed.
Lemma window_t_sweep d (st' st : arr Q * Q) m ix : (d < 2)%nat -> (0 <= m < Z.of_nat neq)%Z -> box T 0 0 ix -> fst st' m ix = fst st m (moved bs ix) ->
  fst (t_sweep undef T trans d aux' x' st') m ix = fst (t_sweep undef S trans d aux x st) m (moved bs ix).
Proof.
  intros Hd Hm B E. pose proof (box_len S bs Hg1 HL _ _ _ B) as Hlen. pose proof (fits S bs Hg1 HL HB (1 - d)%nat ltac:(lia)) as Fr.
  assert (Br : (g <= get (1 - d) ix < g + nth (1 - d) ns' 0)%Z).
  { destruct B as [_ B2]. specialize (B2 (1 - d)%nat ltac:(rewrite (T_length S bs Hg1 HL); lia)). cbn [Nat.ltb Nat.leb] in B2. cbn [mlocal n_ng n_bcs] in *. lia. }
  rewrite !t_sweep_at, E.
  rewrite (fold_three _ 0 _ (get (1 - d) ix - g + 1)); [|cbn [mlocal n_ng]; lia|cbn [mlocal n_ng]; lia|intros w j Hj; apply t_change_idle; exact Hj].
  pose proof (get_moved bs ix (1 - d)%nat Hlen ltac:(lia)) as Gm.
  rewrite (fold_three _ 0 _ (get (1 - d) (moved bs ix) - g + 1)); [|lia|lia|intros w j Hj; apply t_change_idle; exact Hj].
  pose proof (fun k v Hk1 => window_t_change d k v m ix Hd Hk1 Hm B) as W. cbv zeta in W.
  rewrite (W (1)%Z) by lia. f_equal. pose proof (fun v => W 0%Z v ltac:(lia)) as W0. rewrite !Z.add_0_r in W0. rewrite W0. f_equal.
  apply (W (-1)%Z). lia.
Qed.
(** An unsplit step on the box is the part of the unsplit step on the grid. *)
Theorem window_unsplit m ix : (0 <= m < Z.of_nat neq)%Z -> box T 0 0 ix ->
  fst (step2 undef T trans aux' x' x') m ix = fst (step2 undef S trans aux x x) m (moved bs ix).
Proof.
  intros Hm B. unfold step2. apply window_t_sweep; [lia|exact Hm|exact B|]. apply window_t_sweep; [lia|exact Hm|exact B|].
  cbn [fst]. apply Wx; [exact Hm|]. apply (box_grow _ 0); [lia|exact B].
Qed.
End U.
