(** Proofs about the multistep methods. *)
From Verif Require Import Base TimeModel SharpModel SharpSpec SharpProofs MultiModel MultiSpec.

(** ** Last k entries of a list *)
Definition lastn {A} (k : nat) (l : list A) : list A := skipn (length l - k) l.

Lemma lastn_short {A} k (l : list A) : (length l <= k)%nat -> lastn k l = l.
Proof. intros H. unfold lastn. replace (length l - k)%nat with O by lia. reflexivity. Qed.
Lemma lastn_length {A} k (l : list A) : length (lastn k l) = Nat.min k (length l).
Proof. unfold lastn. rewrite skipn_length. lia. Qed.
Lemma skipn_S_tl {A} n (l : list A) : skipn (S n) l = tl (skipn n l).
Proof. revert l; induction n; intros [|a l]; simpl; auto. rewrite <- IHn. destruct l; reflexivity. Qed.
Lemma lastn_snoc_lt {A} k (l : list A) x : (length l < k)%nat -> lastn k (l ++ [x]) = lastn k l ++ [x].
Proof. intros H. rewrite !lastn_short; auto; try rewrite app_length; simpl; lia. Qed.
Lemma lastn_snoc_ge {A} k (l : list A) x : (0 < k)%nat -> (k <= length l)%nat ->
  lastn k (l ++ [x]) = tl (lastn k l) ++ [x].
Proof.
  intros H0 H. unfold lastn. rewrite app_length. simpl.
  replace (length l + 1 - k)%nat with (S (length l - k))%nat by lia.
  rewrite skipn_S_tl. rewrite skipn_app. replace (length l - k - length l)%nat with O by lia. simpl.
  assert (length (skipn (length l - k) l) = k) by (rewrite skipn_length; lia).
  destruct (skipn (length l - k) l); simpl in *; [lia|reflexivity].
Qed.
Lemma lastn_map {A B} (g : A -> B) k l : lastn k (map g l) = map g (lastn k l).
Proof. unfold lastn. rewrite map_length. apply skipn_map. Qed.
Lemma nth_lastn {A} k (l : list A) j d : (k <= length l)%nat -> nth j (lastn k l) d = nth (length l - k + j) l d.
Proof.
  intros H. unfold lastn. generalize (length l - k)%nat as n. clear H. revert l.
  induction l as [|a l IH]; intros [|n]; auto; [destruct j; reflexivity|]. simpl. apply IH.
Qed.
Lemma last_lastn {A} k (l : list A) d : (0 < k)%nat -> last (lastn k l) d = last l d.
Proof.
  intros Hk. unfold lastn. set (n := (length l - k)%nat).
  assert (Hn : (n < length l \/ l = [])%nat) by (destruct l; [auto | left; subst n; cbn [length]; lia]).
  clearbody n. revert l Hn. induction n as [|n IH]; intros l Hn; [reflexivity|].
  destruct l as [|a l]; [reflexivity|]. destruct Hn as [Hn|]; [|discriminate]. simpl in Hn. cbn [skipn].
  rewrite IH by (left; lia). destruct l; [simpl in Hn; lia|reflexivity].
Qed.
Lemma last_map {A B} (g : A -> B) l d d' : l <> [] -> last (map g l) d' = g (last l d).
Proof. induction l as [|a [|b l] IH]; intros H; try congruence; [reflexivity|]. apply IH; discriminate. Qed.
Lemma last_snoc {A} (l : list A) x d : last (l ++ [x]) d = x.
Proof. apply last_last. Qed.
Lemma tl_app {A} (l m : list A) : l <> [] -> tl (l ++ m) = tl l ++ m.
Proof. destruct l; simpl; congruence. Qed.

(** ** Differences *)
Lemma diffs_snoc l x : l <> [] -> diffs (l ++ [x]) = diffs l ++ [x - last l 0].
Proof.
  induction l as [|a [|b l] IH]; intros H; try congruence; [reflexivity|].
  change (diffs ((a :: b :: l) ++ [x])) with ((b - a) :: diffs ((b :: l) ++ [x])).
  rewrite IH by discriminate. reflexivity.
Qed.
Lemma diffs_tl l : diffs (tl l) = tl (diffs l).
Proof. destruct l as [|a [|b l]]; reflexivity. Qed.
Lemma qsum_diffs l : l <> [] -> qsum (diffs l) == last l 0 - nth 0 l 0.
Proof.
  induction l as [|a [|b l] IH]; intros H; try congruence; [simpl; ring|].
  change (qsum (diffs (a :: b :: l))) with (b - a + qsum (diffs (b :: l))).
  rewrite IH by discriminate. change (last (a :: b :: l) 0) with (last (b :: l) 0). simpl nth. ring.
Qed.
Lemma qsum_eq l m : Forall2 Qeq l m -> qsum l == qsum m.
Proof. induction 1; simpl; [reflexivity|]. rewrite H, IHForall2. reflexivity. Qed.

(** ** Python indexing *)
Lemma pyindex_pos {A} (l : list A) (i : nat) d : (i < length l)%nat -> pyindex l (Z.of_nat i) = Some (nth i l d).
Proof.
  intros H. unfold pyindex. replace (Z.leb _ _ && Z.ltb _ _)%bool with true
    by (symmetry; apply andb_true_intro; split; [apply Z.leb_le | apply Z.ltb_lt]; lia).
  replace (Z.of_nat i <? 0)%Z with false by (symmetry; apply Z.ltb_ge; lia).
  rewrite Nat2Z.id. apply nth_error_nth'; auto.
Qed.
Lemma pyindex_neg {A} (l : list A) (i : nat) d : (0 < i <= length l)%nat ->
  pyindex l (- Z.of_nat i) = Some (nth (length l - i) l d).
Proof.
  intros H. unfold pyindex. replace (Z.leb _ _ && Z.ltb _ _)%bool with true
    by (symmetry; apply andb_true_intro; split; [apply Z.leb_le | apply Z.ltb_lt]; lia).
  replace (- Z.of_nat i <? 0)%Z with true by (symmetry; apply Z.ltb_lt; lia).
  replace (Z.to_nat _) with (length l - i)%nat by lia. apply nth_error_nth'. lia.
Qed.
Lemma pyindex_last {A} (l : list A) d : l <> [] -> pyindex l (-1) = Some (last l d).
Proof.
  intros H. change (-1)%Z with (- Z.of_nat 1)%Z. rewrite (pyindex_neg l 1 d) by (destruct l; [congruence|simpl; lia]).
  f_equal. rewrite (app_removelast_last d H) at 1 2. rewrite app_length, app_nth2; simpl; [|lia].
  replace (_ - _)%nat with O by lia. reflexivity.
Qed.

(** ** The user's multistep formula *)
Section Lmm.
Variable Idx : Type.
Notation V := (Idx -> Q).
Notation zero := (fun _ : Idx => 0).

Lemma lmm_term_pos dt alpha beta (regs fs : list V) (i : nat) :
  (i < length alpha)%nat -> (i < length beta)%nat -> (i < length regs)%nat -> (i < length fs)%nat ->
  lmm_term dt alpha beta regs fs (Z.of_nat i)
  = Some (vadd (vscale (nth i alpha 0) (nth i regs zero)) (vscale (nth i beta 0 * dt) (nth i fs zero))).
Proof.
  intros. unfold lmm_term. rewrite (pyindex_pos alpha i 0), (pyindex_pos regs i zero), (pyindex_pos beta i 0),
    (pyindex_pos fs i zero) by auto. reflexivity.
Qed.
Lemma lmm_term_last dt alpha beta (regs fs : list V) (k : nat) : (0 < k)%nat ->
  length alpha = k -> length beta = k -> length regs = k -> length fs = k ->
  lmm_term dt alpha beta regs fs (-1) = lmm_term dt alpha beta regs fs (Z.of_nat (k - 1)).
Proof.
  intros. rewrite lmm_term_pos by lia. unfold lmm_term. change (-1)%Z with (- Z.of_nat 1)%Z.
  rewrite (pyindex_neg alpha 1 0), (pyindex_neg regs 1 zero), (pyindex_neg beta 1 0), (pyindex_neg fs 1 zero) by lia.
  rewrite H0, H1, H2, H3. reflexivity.
Qed.
Lemma lmm_fold (term : Z -> option V) (g : nat -> V) n : forall y,
  (forall i, (i < n)%nat -> term (Z.of_nat i) = Some (g i)) ->
  exists q', fold_left (fun acc i => bind2 acc (term i) (fun y x => Some (vadd y x)))
               (map Z.of_nat (seq 0 n)) (Some y) = Some q'
             /\ veq q' (fun x => y x + sum_n n (fun j => g j x)).
Proof.
  induction n as [|n IH]; intros y H.
  - exists y. split; [reflexivity|]. intros x. simpl. ring.
  - destruct (IH y ltac:(intros; apply H; lia)) as (q & E & F).
    exists (vadd q (g n)). rewrite seq_S, map_app, fold_left_app, E. simpl. rewrite (H n) by lia. split; [reflexivity|].
    intros x. cbv [vadd]. rewrite (F x). ring.
Qed.
Lemma lmm_correct dt alpha beta (regs fs : list V) (k : nat) : (0 < k)%nat ->
  length alpha = k -> length beta = k -> length regs = k -> length fs = k ->
  exists q', lmm dt (Z.of_nat k) alpha beta regs fs = Some q'
    /\ veq q' (fun x => sum_n k (fun j => nth j alpha 0 * nth j regs zero x + nth j beta 0 * dt * nth j fs zero x)).
Proof.
  intros. unfold lmm. rewrite (lmm_term_last dt alpha beta regs fs k) by auto. rewrite lmm_term_pos by lia.
  replace (Z.to_nat (Z.of_nat k - 1)) with (k - 1)%nat by lia.
  set (g := fun j => vadd (vscale (nth j alpha 0) (nth j regs zero)) (vscale (nth j beta 0 * dt) (nth j fs zero))).
  change (vadd (vscale (nth (k - 1) alpha 0) (nth (k - 1) regs zero))
               (vscale (nth (k - 1) beta 0 * dt) (nth (k - 1) fs zero))) with (g (k - 1)%nat).
  destruct (lmm_fold (lmm_term dt alpha beta regs fs) g (k - 1) (g (k - 1)%nat)) as (q & E & F).
  { intros i Hi. apply lmm_term_pos; lia. }
  exists q. split; auto. intros x. rewrite (F x).
  match goal with |- _ == sum_n k ?G => replace (sum_n k G) with (sum_n (S (k - 1)) G) by (f_equal; lia) end.
  cbn [sum_n].
  unfold g. cbv [vadd vscale]. ring.
Qed.
End Lmm.

(** ** History invariant *)
Section Hist.
Variable Idx DX : Type.
Notation V := (Idx -> Q).
Notation zero := (fun _ : Idx => 0).
Notation zz := ((fun _ : Idx => 0, 0) : V * Q).
Variable f : Q -> V -> V.
Variable speed : Q -> V -> Q.
Variable hook : Q -> V -> V.
Variable I : integrator.
Variable k : nat.
Variable check : bool.
Variable alpha beta : list Q.
Variable before : sol V DX -> DX.
Variable variable_dt : bool.

Hypothesis Hmode : (is_ssp I = true /\ variable_dt = true)
  \/ (I = LMM /\ length alpha = k /\ length beta = k).
Hypothesis Hk : (2 <= k)%nat.
Hypothesis Hcheck : (is_k3 I && check)%bool = false.

Notation step := (multi_step f speed hook I (Z.of_nat k) check alpha beta).
Notation accept := (multi_accept I (Z.of_nat k)).
Notation "'slp'" := (slope f).

Definition here (so : sol V DX) : V * Q := (sq so, st so).

(** What the saved values hold when the solutions [P] have been pushed. *)
Definition saved (P : list (V * Q)) (h : hist Idx) : Prop :=
  (exists g, h_regs h = g ++ lastn k P) /\ length (h_regs h) = k
  /\ (h_dts h = [] <-> P = [])
  /\ (I <> SSPLMMk2 -> h_fs h = lastn k (map slp P))
  /\ (is_ssp I = true -> length (h_dts h) = Nat.min k (length P)
                         /\ Forall2 Qeq (tl (h_dts h)) (diffs (lastn k (map snd P)))).

Definition hinv (sols : list (V * Q)) (s : solver (hist Idx)) (so : sol V DX) : Prop :=
  let P := if accept_step s then removelast sols else sols in
  sols <> [] /\ last sols zz = here so
  /\ st_numsteps s = (Z.of_nat (length sols) - 1)%Z
  /\ dt_variable s = variable_dt
  /\ saved P (ext s)
  /\ (accept_step s = true -> P <> [] -> exists d, dt_old s = Some d
        /\ (is_ssp I = true -> d == snd (last sols zz) - snd (last P zz)))
  /\ (accept_step s = false -> h_dqdt (ext s) = slp (last sols zz)).

(** The state after update_saved_values *)
Definition ready (sols : list (V * Q)) (s : solver (hist Idx)) : Prop :=
  st_numsteps s = (Z.of_nat (length sols) - 1)%Z /\ dt_variable s = variable_dt
  /\ saved sols (ext s) /\ h_dqdt (ext s) = slp (last sols zz).

Lemma saved_push P x h d : saved P h -> P <> [] -> (is_ssp I = true -> d == snd x - snd (last P zz)) ->
  let startup := Z.leb (Z.of_nat (S (length P))) (Z.of_nat (length (h_regs h))) in
  let push {A} (l : list A) (y : A) := if startup then l ++ [y] else roll l y in
  forall dtFEs c,
  saved (P ++ [x]) (mkHist (roll (h_regs h) x)
     (match I with SSPLMMk2 => h_fs h | _ => push (h_fs h) (slp x) end)
     (if is_ssp I then push (h_dts h) d else h_dts h) dtFEs (slp x) c).
Proof.
  intros ((g & Eg) & Lr & Ed & Ef & Es) HP Hd startup push dtFEs c.
  assert (Lg : (length g + Nat.min k (length P) = k)%nat).
  { pose proof Lr as E. rewrite Eg, app_length, lastn_length in E. exact E. }
  unfold saved. cbn [h_regs h_fs h_dts].
  assert (HS : startup = Nat.ltb (length P) k).
  { unfold startup. rewrite Lr. destruct (Nat.ltb_spec (length P) k); [apply Z.leb_le | apply Z.leb_gt]; lia. }
  clearbody startup. subst startup.
  assert (Edn : h_dts h <> []) by (intros E; apply HP; apply Ed; auto).
  assert (Push : forall {A} (F : list (V * Q) -> list A) (y : A) l, l = lastn k (F P) -> F (P ++ [x]) = F P ++ [y] ->
    length (F P) = length P -> push A l y = lastn k (F (P ++ [x]))).
  { intros A F y l -> EF LF. rewrite EF. unfold push, roll. destruct (Nat.ltb_spec (length P) k).
    - rewrite lastn_snoc_lt by lia. reflexivity.
    - rewrite lastn_snoc_ge by lia. reflexivity. }
  split; [|split; [|split; [|split]]].
  - unfold roll. rewrite Eg. destruct (Nat.ltb_spec (length P) k).
    + exists (tl g). rewrite (lastn_snoc_lt k P) by lia.
      rewrite tl_app by (destruct g; [simpl in Lg; lia|discriminate]). rewrite app_assoc. reflexivity.
    + exists []. rewrite (lastn_snoc_ge k P) by lia. destruct g; [reflexivity|simpl in Lg; lia].
  - unfold roll. rewrite app_length. destruct (h_regs h); simpl in *; lia.
  - split; intros E; exfalso.
    + destruct (is_ssp I); [|auto]. unfold push, roll in E. destruct (Nat.ltb _ _); eapply app_cons_not_nil; symmetry; eauto.
    + eapply app_cons_not_nil; symmetry; eauto.
  - intros HI. assert (E : push V (h_fs h) (slp x) = lastn k (map slp (P ++ [x]))).
    { apply (Push _ (map slp)); [apply Ef; auto | apply map_app | apply map_length]. }
    destruct I; try congruence; exact E.
  - intros HI. rewrite HI. destruct (Es HI) as [Ld Fd]. specialize (Hd HI). rewrite map_app. cbn [map].
    unfold push, roll. destruct (Nat.ltb_spec (length P) k).
    + rewrite !app_length, Ld. cbn [length]. split; [lia|].
      rewrite tl_app by auto. rewrite lastn_snoc_lt by (rewrite map_length; lia).
      assert (Hne : lastn k (map snd P) <> []).
      { intros E. apply (f_equal (@length Q)) in E. rewrite lastn_length, map_length in E. destruct P; simpl in E; [congruence|lia]. }
      rewrite diffs_snoc by auto. apply Forall2_app; auto. repeat constructor.
      rewrite last_lastn by lia. rewrite (last_map snd P zz) by auto. auto.
    + assert (Ldt : length (tl (h_dts h)) = (k - 1)%nat) by (destruct (h_dts h); simpl in *; lia).
      rewrite !app_length, Ldt. cbn [length]. split; [lia|].
      rewrite tl_app by (intros E; rewrite E in Ldt; simpl in Ldt; lia).
      rewrite lastn_snoc_ge by (try rewrite map_length; lia).
      set (L := lastn k (map snd P)) in *.
      assert (LL : length L = k) by (unfold L; rewrite lastn_length, map_length; lia).
      assert (Hne : tl L <> []) by (destruct L as [|a [|b L']]; simpl in *; try lia; discriminate).
      rewrite diffs_snoc, diffs_tl by auto. apply Forall2_app.
      * destruct Fd; simpl; auto.
      * repeat constructor. rewrite Hd. assert (El : last (tl L) 0 = last L 0) by (destruct L as [|a [|b L']]; simpl in *; try lia; reflexivity).
        rewrite El. unfold L. rewrite last_lastn by lia. rewrite (last_map snd P zz) by auto. reflexivity.
Qed.

Lemma saved_first x h dtFEs c : saved [] h ->
  saved [x] (mkHist (set_last (h_regs h) x) (h_fs h ++ [slp x]) (h_dts h ++ [0]) dtFEs (slp x) c).
Proof.
  intros ((g & Eg) & Lr & Ed & Ef & Es). unfold saved. cbn [h_regs h_fs h_dts].
  assert (En : h_dts h = []) by (apply Ed; auto). rewrite En.
  split; [|split; [|split; [|split]]].
  - exists (removelast (h_regs h)). rewrite lastn_short by (simpl; lia). reflexivity.
  - unfold set_last. rewrite app_length. cbn [length]. rewrite <- Lr.
    assert (Hne : h_regs h <> []) by (intros E; rewrite E in Lr; simpl in Lr; lia).
    rewrite (app_removelast_last x Hne) at 2. rewrite app_length. reflexivity.
  - split; [discriminate|discriminate].
  - intros HI. rewrite (Ef HI). rewrite !lastn_short by (simpl; lia). reflexivity.
  - intros HI. rewrite lastn_short by (simpl; lia). simpl. split; [lia|constructor].
Qed.

Lemma update_ready sols s so : hinv sols s so -> h_dqdt (ext s) = slp (here so) ->
  exists s2, update_saved_values I (Z.of_nat k) check s so (st_numsteps s + 1) = (s2, so, Z.of_nat (length sols))
    /\ ready sols s2 /\ accept_step s2 = accept_step s.
Proof.
  intros (Hne & Hl & Hn & Hv & Hs & Hd & Hq) Hdq. unfold update_saved_values. rewrite Hcheck. cbn [andb].
  assert (Hidx : (st_numsteps s + 1)%Z = Z.of_nat (length sols)) by lia.
  pose proof Hs as Hs0. destruct Hs as (Hg & Lr & Ed & Ef & Es).
  rewrite Hidx. destruct (h_dts (ext s)) as [|d0 dts] eqn:Edts.
  - (* first step *)
    assert (EP : (if accept_step s then removelast sols else sols) = []) by (apply Ed; reflexivity).
    destruct (accept_step s) eqn:Ea; [|congruence].
    assert (Esol : sols = [here so]).
    { rewrite (app_removelast_last zz Hne), EP, Hl. reflexivity. }
    eexists. split; [reflexivity|]. split; [|exact Ea].
    unfold ready. split; [exact Hn|split; [exact Hv|split; [|rewrite Hl; exact Hdq]]].
    rewrite EP in Hs0.
    pose proof (saved_first (here so) (ext s) (if is_ssp I then h_dtFEs (ext s) ++ [dtFE_now I (Z.of_nat k) s]
                                              else h_dtFEs (ext s)) (h_lmm_cond (ext s)) Hs0) as F.
    rewrite Edts in F. rewrite Esol. rewrite <- Hdq in F. exact F.
  - rewrite <- Edts in *. destruct (accept_step s) eqn:Ea.
    + assert (HP : removelast sols <> []).
      { intros E. apply Ed in E. rewrite E in Edts. discriminate. }
      destruct (Hd eq_refl HP) as (d & Edo & Hdv). rewrite Edo.
      eexists. split; [reflexivity|]. split; [|exact Ea].
      assert (Es' : sols = removelast sols ++ [here so]) by (rewrite <- Hl; apply app_removelast_last; auto).
      rewrite Hl in Hdv.
      pose proof (saved_push (removelast sols) (here so) (ext s) d Hs0 HP Hdv
                   (if is_ssp I then if (Z.of_nat (length sols) <=? Z.of_nat (length (h_regs (ext s))))%Z
                                     then h_dtFEs (ext s) ++ [dtFE_now I (Z.of_nat k) s] else roll (h_dtFEs (ext s)) (dtFE_now I (Z.of_nat k) s)
                    else h_dtFEs (ext s)) (h_lmm_cond (ext s))) as F.
      cbv zeta in F. rewrite <- Es' in F.
      replace (S (length (removelast sols))) with (length sols) in F
        by (rewrite Es' at 1; rewrite app_length; simpl; lia).
      unfold ready. split; [exact Hn|split; [exact Hv|split; [|rewrite Hl; exact Hdq]]].
      rewrite <- Hdq in F. exact F.
    + exists s. split; [reflexivity|]. split; [|exact Ea]. unfold ready. auto.
Qed.

(** ** One step *)
Definition keeps (s s' : solver (hist Idx)) : Prop :=
  st_numsteps s' = st_numsteps s /\ dt_variable s' = dt_variable s /\ ext s' = ext s /\ accept_step s' = accept_step s.
Lemma new_keeps (s : solver (hist Idx)) : keeps s (multi_get_dt_new I (Z.of_nat k) check s).
Proof. unfold multi_get_dt_new. cbv zeta.
  repeat match goal with |- context [if ?b then _ else _] => destruct b end; repeat split. Qed.
Lemma get_dt_keeps t tstart tend (s : solver (hist Idx)) :
  keeps s (get_dt (multi_get_dt_new I (Z.of_nat k) check) t tstart tend s).
Proof.
  unfold get_dt, get_dt_clip, get_dt_choose. pose proof (new_keeps s) as (A & B & C & D).
  set (s' := multi_get_dt_new I (Z.of_nat k) check s) in *. clearbody s'.
  destruct (_ && _)%bool; [destruct (qltb 0 (cfl s))|]; destruct tend as [te|];
    repeat match goal with |- context [if ?b then _ else _] => destruct b end; repeat split; auto.
Qed.

Definition after (sols : list (V * Q)) (s : solver (hist Idx)) : Prop :=
  ready sols s /\ dt_old s = Some (dt s).

Lemma saved_scratch sols h r dq c : saved sols h -> (length sols < k)%nat ->
  saved sols (mkHist (r :: tl (h_regs h)) (h_fs h) (h_dts h) (h_dtFEs h) dq c).
Proof.
  intros ((g & Eg) & Lr & R) Hlt. split; [|split; auto].
  - cbn [h_regs]. rewrite Eg. rewrite Eg, app_length, lastn_length in Lr.
    destruct g as [|g0 g]; [simpl in Lr; lia|]. exists (r :: g). reflexivity.
  - cbn [h_regs length]. destruct (h_regs h); simpl in *; lia.
Qed.

Lemma saved_first_reg sols h : saved sols h -> (k <= length sols)%nat -> h_regs h = lastn k sols.
Proof.
  intros ((g & Eg) & Lr & _) H. rewrite Eg, app_length, lastn_length in Lr.
  destruct g; [exact Eg|simpl in Lr; lia].
Qed.
Lemma map_nth' {A B} (g : A -> B) l d d' j : (j < length l)%nat -> nth j (map g l) d' = g (nth j l d).
Proof. intros H. rewrite (nth_indep _ _ (g d)) by (rewrite map_length; auto). apply map_nth. Qed.

Lemma step_ok tstart tend sols s so : hinv sols s so ->
  exists s' q', step tstart tend s so = (s', mkSol q' (sx so) (st so))
    /\ multistep f hook I k alpha beta sols (dt s') q' /\ after sols s'.
Proof.
  intros H.
  set (s1 := if accept_step s
             then set_ext (mkHist (h_regs (ext s)) (h_fs (ext s)) (h_dts (ext s)) (h_dtFEs (ext s))
                             (f (st so) (sq so)) (h_lmm_cond (ext s)))
                    (set_cfl (pymax 0 (dt s * speed (st so) (sq so))) s)
             else s).
  assert (N1 : st_numsteps s1 = st_numsteps s) by (unfold s1; destruct (accept_step s); reflexivity).
  assert (H1 : hinv sols s1 so /\ h_dqdt (ext s1) = slp (here so)).
  { unfold s1. destruct (accept_step s) eqn:Ea.
    - split; [|reflexivity]. destruct H as (A & B & C & D & E & F & G). unfold hinv in *.
      change (accept_step (set_ext _ (set_cfl _ s))) with (accept_step s). rewrite Ea in *.
      split; [exact A|]. split; [exact B|]. split; [exact C|]. split; [exact D|]. split; [exact E|].
      split; [exact F|discriminate].
    - split; [exact H|]. destruct H as (A & B & C & D & E & F & G). rewrite (G Ea), B. reflexivity. }
  destruct H1 as [H1 Hdq].
  destruct (update_ready sols s1 so H1 Hdq) as (s2 & E2 & R2 & Acc2). rewrite N1 in E2.
  assert (Hlast : last sols zz = here so) by apply H.
  assert (Hsne : sols <> []) by apply H.
  assert (Hlen : (0 < length sols)%nat) by (destruct sols; [congruence|simpl; lia]).
  unfold multi_step. fold s1. rewrite E2. cbv zeta.
  pose proof (get_dt_keeps (st so) tstart tend s2) as (K1 & K2 & K3 & K4).
  set (s3 := get_dt (multi_get_dt_new I (Z.of_nat k) check) (st so) tstart tend s2) in *. clearbody s3.
  set (s4 := set_dt_old (Some (dt s3)) (set_cfl (dt s3 / match dt_old s3 with Some d => d | None => 1 end * cfl s3) s3)).
  assert (R4 : ready sols s4).
  { unfold ready in *. change (st_numsteps s4) with (st_numsteps s3). change (dt_variable s4) with (dt_variable s3).
    change (ext s4) with (ext s3). rewrite K1, K2, K3. exact R2. }
  assert (D4 : dt_old s4 = Some (dt s4)) by reflexivity.
  clearbody s4. clear s3 K1 K2 K3 K4.
  pose proof R4 as (A4 & B4 & C4 & Q4). pose proof C4 as (_ & Lr & _ & Efs & Edts).
  set (h := ext s4) in *.
  assert (Now : the_last sols = here so) by (unfold the_last; exact Hlast).
  rewrite Hlast in Q4.
  destruct Hmode as [[Hssp Hv] | (HI & La & Lb)].
  - (* variable-step methods *)
    rewrite Hssp. destruct (Nat.ltb_spec (length sols) k) as [Hlt|Hge].
    + replace (Z.of_nat (length sols) <? Z.of_nat k)%Z with true by (symmetry; apply Z.ltb_lt; lia).
      eexists. eexists. split; [reflexivity|]. split.
      * unfold multistep. replace (Nat.ltb (length sols) k) with true by (symmetry; apply Nat.ltb_lt; auto).
        rewrite Now, Q4. destruct I; try discriminate Hssp; reflexivity.
      * split; [|exact D4]. split; [exact A4|]. split; [exact B4|]. split; [|rewrite Hlast; exact Q4].
        exact (saved_scratch sols h _ _ _ C4 Hlt).
    + replace (Z.of_nat (length sols) <? Z.of_nat k)%Z with false by (symmetry; apply Z.ltb_ge; lia).
      eexists. eexists. split; [reflexivity|]. split; [|split; [exact R4|exact D4]].
      unfold multistep. replace (Nat.ltb (length sols) k) with false by (symmetry; apply Nat.ltb_ge; auto).
      rewrite Now. pose proof (saved_first_reg sols h C4 Hge) as Er.
      assert (Lm : length (lastn k sols) = k) by (rewrite lastn_length; lia).
      assert (Old : pyindex (map fst (h_regs h)) (- Z.of_nat k) = Some (fst (nth_of_last k sols 0))).
      { rewrite (pyindex_neg _ k zero) by (rewrite map_length, Er, Lm; lia).
        rewrite map_length, Er, Lm, Nat.sub_diag. rewrite (map_nth' fst _ zz) by lia.
        rewrite nth_lastn by auto. reflexivity. }
      assert (Om : qsum (tl (h_dts h)) == snd (here so) - snd (nth_of_last k sols 0)).
      { destruct (Edts Hssp) as [_ Fd]. rewrite (qsum_eq _ _ Fd). rewrite qsum_diffs.
        - rewrite last_lastn by lia. rewrite (last_map snd sols zz), Hlast by auto.
          rewrite nth_lastn by (rewrite map_length; auto). rewrite map_length. rewrite (map_nth' snd _ zz) by lia. reflexivity.
        - intros E. apply (f_equal (@length Q)) in E. rewrite lastn_length, map_length in E. simpl in E. lia. }
      destruct I; try discriminate Hssp.
      * unfold ssplmm2. rewrite Old. cbv zeta. intros x. unfold k2_formula. cbv [vadd vscale]. rewrite Q4, Om. reflexivity.
      * assert (Efs' : h_fs h = lastn k (map slp sols)) by (apply Efs; discriminate).
        unfold ssplmm3. rewrite Old. unfold bind2.
        assert (F1 : pyindex (h_fs h) (-1) = Some (slp (here so))).
        { rewrite (pyindex_last _ zero).
          - rewrite Efs', last_lastn by lia. rewrite (last_map slp sols zz), Hlast by auto. reflexivity.
          - rewrite Efs'. intros E. apply (f_equal (@length V)) in E. rewrite lastn_length, map_length in E. simpl in E. lia. }
        assert (F2 : pyindex (h_fs h) (- Z.of_nat k) = Some (slp (nth_of_last k sols 0))).
        { rewrite (pyindex_neg _ k zero) by (rewrite Efs', lastn_length, map_length; lia).
          rewrite Efs', lastn_length, map_length. replace (Nat.min k (length sols) - k)%nat with O by lia.
          rewrite lastn_map, (map_nth' slp _ zz) by lia. rewrite nth_lastn by auto. reflexivity. }
        rewrite F1, F2. cbv zeta. intros x. unfold k3_formula. cbv [vadd vscale]. cbv zeta. rewrite Om. reflexivity.
  - (* LMM *)
    rewrite HI. cbn [is_ssp]. rewrite Lr. destruct (Nat.ltb_spec (length sols) k) as [Hlt|Hge].
    + replace (Z.of_nat (length sols) <? Z.of_nat k)%Z with true by (symmetry; apply Z.ltb_lt; lia).
      eexists. eexists. split; [reflexivity|]. split.
      * unfold multistep. replace (Nat.ltb (length sols) k) with true by (symmetry; apply Nat.ltb_lt; auto).
        rewrite Now, Q4. reflexivity.
      * split; [|exact D4]. unfold ready. split; [exact A4|]. split; [exact B4|]. split; [exact C4|rewrite Hlast; exact Q4].
    + replace (Z.of_nat (length sols) <? Z.of_nat k)%Z with false by (symmetry; apply Z.ltb_ge; lia).
      pose proof (saved_first_reg sols h C4 Hge) as Er.
      assert (Efs' : h_fs h = lastn k (map slp sols)) by (apply Efs; congruence).
      assert (Lm : length (lastn k sols) = k) by (rewrite lastn_length; lia).
      destruct (lmm_correct Idx (dt s4) alpha beta (map fst (h_regs h)) (h_fs h) k ltac:(lia) La Lb) as (q' & Eq & Fq).
      { rewrite map_length, Er, Lm. reflexivity. }
      { rewrite Efs', lastn_length, map_length. lia. }
      rewrite Eq. eexists. eexists. split; [reflexivity|]. split; [|split; [exact R4|exact D4]].
      unfold multistep. replace (Nat.ltb (length sols) k) with false by (symmetry; apply Nat.ltb_ge; auto).
      intros x. rewrite (Fq x). apply sum_n_ext. intros j Hj.
      rewrite Er, Efs', lastn_map, !(map_nth' _ _ zz) by lia. rewrite !nth_lastn by auto. reflexivity.
Qed.

(** ** Runs *)
Variable so0 : sol V DX.
Notation sols_of tr := (solutions so0 tr).

Definition event_ok (tr : list (event V DX)) (ev : event V DX) : Prop :=
  here (ev_before ev) = the_last (sols_of tr)
  /\ (ev_accepted ev = true ->
        multistep f hook I k alpha beta (sols_of tr) (ev_dt ev) (sq (ev_after ev))
        /\ (variable_dt = true -> st (ev_after ev) == st (ev_before ev) + ev_dt ev))
  /\ (ev_accepted ev = false -> variable_dt = true -> here (ev_after ev) = here (ev_before ev)).
Definition all_ok (tr : list (event V DX)) : Prop :=
  forall tr1 ev tr2, tr = tr1 ++ ev :: tr2 -> event_ok tr1 ev.

Lemma all_ok_snoc tr ev : all_ok tr -> event_ok tr ev -> all_ok (tr ++ [ev]).
Proof.
  intros A B tr1 e tr2 E. destruct tr2 as [|e2 tr2] using rev_ind.
  - apply app_inj_tail in E. destruct E as [-> ->]. exact B.
  - clear IHtr2. rewrite app_comm_cons, app_assoc in E. apply app_inj_tail in E. destruct E as [E _]. eapply A; eauto.
Qed.
Lemma solutions_snoc tr ev : sols_of (tr ++ [ev]) =
  if ev_accepted ev then sols_of tr ++ [here (ev_after ev)] else sols_of tr.
Proof.
  unfold solutions. rewrite filter_app. simpl. destruct (ev_accepted ev); rewrite map_app; simpl.
  - rewrite map_app. reflexivity.
  - rewrite app_nil_r. reflexivity.
Qed.

Definition inv (tr : list (event V DX)) (s : solver (hist Idx)) (so : sol V DX) : Prop :=
  all_ok tr /\ hinv (sols_of tr) s so.

Notation att := (attempt step accept (fun so => (sq so, before so))).

Lemma attempt_ok tstart tend n tr s so s' so' ev e : inv tr s so ->
  att tstart tend n s so = (s', so', ev, e) ->
  all_ok (tr ++ [ev]) /\ (e = None -> inv (tr ++ [ev]) s' so').
Proof.
  intros [Hall H] E. unfold attempt in E. cbv zeta in E. cbn [fst snd] in E.
  assert (H0 : hinv (sols_of tr) s (mkSol (sq so) (before so) (st so))) by exact H.
  destruct (step_ok tstart tend (sols_of tr) s (mkSol (sq so) (before so) (st so)) H0) as (s1 & q' & E1 & M & (R & D)).
  cbn [sx st] in E1. rewrite E1 in E. clear E1.
  assert (Hne : sols_of tr <> []) by discriminate.
  assert (Hlast : last (sols_of tr) zz = here so) by apply H.
  pose proof R as (R1 & R2 & R3 & R4).
  destruct (accept s1) eqn:Ea.
  - injection E as <- <- <- <-.
    set (t' := Qred _). set (so' := mkSol q' (before so) t').
    assert (Hok : event_ok tr (mkEvent true (dt s1) (cfl s1) so so')).
    { split; [symmetry; exact Hlast|]. cbn [ev_accepted ev_dt ev_after ev_before]. split; [|discriminate].
      intros _. split; [exact M|]. intros Hv. unfold so', t'. cbn [st]. rewrite Qred_correct.
      change (TimeModel.dt_variable _) with (dt_variable s1). rewrite R2, Hv. reflexivity. }
    split; [apply all_ok_snoc; auto|]. intros _. split; [apply all_ok_snoc; auto|].
    rewrite solutions_snoc. cbn [ev_accepted ev_after].
    unfold hinv. change (accept_step _) with true. cbv iota. rewrite removelast_last, last_last.
    split; [intros X; apply app_eq_nil in X; destruct X; discriminate|]. split; [reflexivity|].
    split; [rewrite app_length; cbn [length]; change (TimeModel.st_numsteps _) with (st_numsteps s1 + 1)%Z; lia|].
    split; [exact R2|]. split; [exact R3|]. split; [|discriminate].
    intros _ _. exists (dt s1). split; [exact D|]. intros Hssp. rewrite Hlast. cbn [here snd so' st].
    assert (Hv : variable_dt = true) by (destruct Hmode as [[_ Hv]|[HI _]]; [auto | rewrite HI in Hssp; discriminate]).
    unfold t'. rewrite Qred_correct. change (TimeModel.dt_variable _) with (dt_variable s1). rewrite R2, Hv.
    cbn [here snd]. change (TimeModel.dt _) with (dt s1). ring.
  - change (TimeModel.dt_variable (set_accept_step false s1)) with (dt_variable s1) in E.
    destruct (dt_variable s1) eqn:Ev; injection E as <- <- <- <-.
    + set (so' := mkSol (sq so) (before so) (st so)).
      assert (Hok : event_ok tr (mkEvent false (dt s1) (cfl s1) so so')).
      { split; [symmetry; exact Hlast|]. cbn [ev_accepted]. split; [discriminate|]. reflexivity. }
      split; [apply all_ok_snoc; auto|]. intros _. split; [apply all_ok_snoc; auto|].
      rewrite solutions_snoc. cbn [ev_accepted]. unfold hinv. change (accept_step _) with false. cbv iota.
      split; [exact Hne|]. split; [exact Hlast|]. split; [exact R1|]. split; [rewrite <- R2; exact Ev|].
      split; [exact R3|]. split; [discriminate|]. intros _. exact R4.
    + split; [|discriminate]. apply all_ok_snoc; auto. split; [symmetry; exact Hlast|].
      cbn [ev_accepted]. split; [discriminate|]. intros _ Hv. congruence.
Qed.

Lemma loop_ok m : forall n tstart tend s so num pre tr s' so' num' tr' e,
  inv (pre ++ rev tr) s so ->
  evolve_loop step accept (fun so => (sq so, before so)) m n tstart tend s so num tr = (s', so', num', tr', e) ->
  all_ok (pre ++ rev tr') /\ (e = None -> inv (pre ++ rev tr') s' so').
Proof.
  induction m as [|m IH]; intros n tstart tend s so num pre tr s' so' num' tr' e H E.
  - injection E as <- <- <- <- <-. split; [apply H|auto].
  - cbn [evolve_loop] in E. destruct (att tstart tend n s so) as [[[s1 so1] ev] e1] eqn:Ea.
    destruct (attempt_ok _ _ _ _ _ _ _ _ _ _ H Ea) as [A B].
    assert (X : pre ++ rev (ev :: tr) = (pre ++ rev tr) ++ [ev]) by (simpl; apply app_assoc).
    destruct e1 as [e1|].
    + injection E as <- <- <- <- <-. rewrite X. split; [exact A|discriminate].
    + specialize (B eq_refl). destruct (finished tend so1).
      * injection E as <- <- <- <- <-. rewrite X. split; [exact A|auto].
      * eapply IH; [|exact E]. rewrite X. exact B.
Qed.

Lemma setup_keeps tstart tend (s s' : solver (hist Idx)) e : evolve_setup tstart tend s = (s', e) ->
  keeps s s' /\ dt_old s' = dt_old s.
Proof.
  unfold evolve_setup. intros E.
  repeat match type of E with
  | context [match ?b with _ => _ end] =>
      match b with context [match _ with _ => _ end] => fail 1 | _ => destruct b end
  end; injection E as <- <-; repeat split.
Qed.

Lemma hinv_keeps sols s s' so : keeps s s' -> dt_old s' = dt_old s -> hinv sols s so -> hinv sols s' so.
Proof. intros (A & B & C & D) F H. unfold hinv. rewrite A, B, C, D, F. exact H. Qed.

Lemma evolve_ok pre s so tend : inv pre s so ->
  let r := multi_evolve f speed hook I (Z.of_nat k) check alpha beta before s so tend in
  all_ok (pre ++ r_trace r) /\ (r_err r = None -> inv (pre ++ r_trace r) (r_solver r) (r_sol r)).
Proof.
  intros H. cbv zeta. unfold multi_evolve, evolve_to_time.
  destruct (evolve_setup (st so) tend s) as [s1 e1] eqn:E1.
  destruct (setup_keeps _ _ _ _ _ E1) as [K D].
  assert (H1 : inv (pre ++ rev []) s1 so).
  { rewrite app_nil_r. split; [apply H|]. eapply hinv_keeps; eauto. apply H. }
  destruct e1 as [e1|].
  - cbn [r_trace r_err]. rewrite app_nil_r. split; [apply H|discriminate].
  - destruct (evolve_loop _ _ _ _ _ _ _ _ _ _ _) as [[[[s2 so2] num] tr] e2] eqn:E2.
    destruct (loop_ok _ _ _ _ _ _ _ _ _ _ _ _ _ _ H1 E2) as [A B].
    destruct e2 as [e2|]; cbn [r_trace r_err r_solver r_sol].
    + split; [exact A|discriminate].
    + split; [exact A|intros _; apply B; reflexivity].
Qed.

Lemma runs_ok tends : forall pre s so s' so' tr, inv pre s so ->
  multi_runs f speed hook I (Z.of_nat k) check alpha beta before s so tends = (s', so', tr) ->
  all_ok (pre ++ tr).
Proof.
  induction tends as [|te tends IH]; intros pre s so s' so' tr H E; cbn [multi_runs] in E.
  - injection E as <- <- <-. rewrite app_nil_r. apply H.
  - destruct (evolve_ok pre s so te H) as [A B].
    set (r := multi_evolve f speed hook I (Z.of_nat k) check alpha beta before s so te) in *.
    destruct (r_err r).
    + injection E as <- <- <-. exact A.
    + destruct (multi_runs f speed hook I (Z.of_nat k) check alpha beta before (r_solver r) (r_sol r) tends)
        as [[s1 so1] tr1] eqn:E1. injection E as <- <- <-.
      rewrite app_assoc. eapply IH; [|exact E1]. apply B. reflexivity.
Qed.

(** A freshly set-up solver *)
Lemma fresh_inv s : accept_step s = true -> st_numsteps s = 0%Z -> dt_variable s = variable_dt ->
  length (h_regs (ext s)) = k -> h_fs (ext s) = [] -> h_dts (ext s) = [] -> inv [] s so0.
Proof.
  intros A B C D E F. split.
  - intros tr1 ev tr2 X. destruct tr1; discriminate.
  - unfold hinv. rewrite A. change (sols_of []) with [here so0]. cbn [removelast last length].
    split; [discriminate|]. split; [reflexivity|]. split; [exact B|]. split; [exact C|]. split.
    + split; [exists (h_regs (ext s)); symmetry; apply app_nil_r|]. split; [exact D|]. rewrite E, F.
      split; [tauto|]. split; [reflexivity|]. intros _. split; [rewrite Nat.min_0_r; reflexivity|constructor].
    + split; [congruence|discriminate].
Qed.
End Hist.
