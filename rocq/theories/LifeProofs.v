(** Proofs about the life of the Fortran module arrays. *)
From Verif Require Import Base LifeModel LifeSpec.


(** Which arrays are allocated while a solver with these options is in use *)
Definition recon_arrays (l c : Z) : list arr :=
  match l with
  | 1%Z => match c with 1%Z => [Uu] | 2%Z => [Dq; U; Hh] | _ => [] end
  | 2%Z => match c with 0%Z => [Uu; Dq1m] | 2%Z => [Dq; Uu; Hh] | 3%Z => [Dq; Gg; U; Hh; Uh] | _ => [] end
  | _ => []
  end.
Definition all_arrays (l c : Z) : list arr :=
  params ++ work ++ (if (1 <? c)%Z then [Evl; Evr] else []) ++ recon_arrays l c.
Definition has (l : list arr) (a : arr) : bool := existsb (arr_eqb a) l.
Definition holds (m : mem) (l : list arr) (n : Z) : Prop := forall a, m a = if has l a then Some n else None.

Definition full (l : list arr) (n : Z) : mem := fun a => if has l a then Some n else None.

(** Finitely many arrays: allocation patterns can be computed. A memory is determined by its value at each array. *)
Definition arrays : list arr :=
  [Xlower; Xupper; Dx; Mthlim; Ql; Qr; Amdq; Apdq; Amdq2; Apdq2; Wave; Speed; Dtdx; Evl; Evr;
   Uu; Dq1m; Dq; U; Hh; Gg; Uh].

Lemma options_cases l c : documented l c ->
  (l = 1 /\ (c = 0 \/ c = 1 \/ c = 2))%Z \/ (l = 2 /\ (c = 0 \/ c = 1 \/ c = 2 \/ c = 3))%Z.
Proof. unfold documented. lia. Qed.

Lemma allocate_holds n l : forall m L, (forall a, In a l -> m a = None) -> NoDup l ->
  (forall a, m a = if has L a then Some n else None) ->
  exists m', allocate n l m = Some m' /\ forall a, m' a = if has (L ++ l) a then Some n else None.
Proof.
  induction l as [|b l IH]; intros m L HN ND HM.
  - exists m. split; [reflexivity|]. rewrite app_nil_r. exact HM.
  - cbn [allocate]. rewrite (HN b (or_introl eq_refl)). inversion ND; subst.
    destruct (IH (store b (Some n) m) (L ++ [b])) as (m' & E & HM').
    + intros a Ha. unfold store. destruct (arr_eqb b a) eqn:Eb.
      * assert (b = a) by (destruct b, a; try discriminate; reflexivity). subst. contradiction.
      * apply HN. right. assumption.
    + assumption.
    + intro a. unfold store, has. rewrite existsb_app. cbn [existsb].
      destruct (arr_eqb b a) eqn:Eb.
      * assert (Es : arr_eqb a b = true) by (destruct b, a; try discriminate; reflexivity).
        rewrite Es, Bool.orb_true_r. reflexivity.
      * assert (Es : arr_eqb a b = false) by (destruct b, a; try discriminate; reflexivity).
        rewrite Es, !Bool.orb_false_r. apply HM.
    + exists m'. split; [exact E|]. intro a. rewrite HM', <- app_assoc. reflexivity.
Qed.

Lemma setup_mem l c n m : documented l c -> (forall a, m a = None) ->
  exists m1 m2 m3, alloc_clawparams n m = Some m1 /\ alloc_workspace n c m1 = Some m2 /\
    alloc_recon n l c m2 = Some m3 /\ holds m3 (all_arrays l c) n.
Proof.
  intros D H0. unfold alloc_clawparams, alloc_workspace, alloc_recon, holds.
  destruct (allocate_holds n params m []) as (m1 & E1 & H1).
  { intros; apply H0. }
  { unfold params. repeat constructor; cbn; intuition discriminate. }
  { intro a. rewrite H0. reflexivity. }
  cbn [app] in H1.
  destruct (allocate_holds n work m1 params) as (m2 & E2 & H2).
  { intros a Ha. rewrite H1. cbn in Ha. decompose [or] Ha; subst; try reflexivity; contradiction. }
  { unfold work. repeat constructor; cbn; intuition discriminate. }
  { exact H1. }
  exists m1. rewrite E1, E2.
  assert (K : exists m2', (if (1 <? c)%Z then allocate n [Evl; Evr] m2 else Some m2) = Some m2' /\
     forall a, m2' a = if has ((params ++ work) ++ (if (1 <? c)%Z then [Evl; Evr] else [])) a then Some n else None).
  { destruct (1 <? c)%Z eqn:Ec.
    - destruct (allocate_holds n [Evl; Evr] m2 (params ++ work)) as (m2' & E & H).
      + intros a Ha. rewrite H2. cbn in Ha. decompose [or] Ha; subst; try reflexivity; contradiction.
      + repeat constructor; cbn; intuition discriminate.
      + exact H2.
      + exists m2'. split; assumption.
    - exists m2. split; [reflexivity|]. rewrite app_nil_r. exact H2. }
  destruct K as (m2' & E2' & H2').
  assert (K : exists m3, allocate n (recon_arrays l c) m2' = Some m3 /\
     forall a, m3 a = if has (all_arrays l c) a then Some n else None).
  { destruct (allocate_holds n (recon_arrays l c) m2' ((params ++ work) ++ (if (1 <? c)%Z then [Evl; Evr] else []))) as (m3 & E & H).
    - intros a Ha. rewrite H2'.
      destruct (options_cases l c D) as [(El & [Ec|[Ec|Ec]])|(El & [Ec|[Ec|[Ec|Ec]]])]; subst l c; cbn in Ha;
        decompose [or] Ha; subst; try reflexivity; try contradiction.
    - destruct (options_cases l c D) as [(El & [Ec|[Ec|Ec]])|(El & [Ec|[Ec|[Ec|Ec]]])]; subst l c; cbn;
        repeat constructor; cbn; intuition discriminate.
    - exact H2'.
    - exists m3. split; [exact E|]. intro a. rewrite H. unfold all_arrays. rewrite <- !app_assoc. reflexivity. }
  destruct K as (m3 & E3 & H3).
  exists m2', m3. split; [reflexivity|]. split; [exact E2'|]. split; [|exact H3].
  destruct (options_cases l c D) as [(El & [Ec|[Ec|Ec]])|(El & [Ec|[Ec|[Ec|Ec]]])]; subst l c; exact E3.
Qed.

Lemma deallocate_all n l : forall m L, NoDup l -> (forall a, In a l -> has L a = true) -> holds m L n ->
  exists m', deallocate l m = Some m' /\ forall a, m' a = if has l a then None else m a.
Proof.
  induction l as [|b l IH]; intros m L ND HI HM.
  - exists m. split; reflexivity.
  - cbn [deallocate]. rewrite (HM b), (HI b (or_introl eq_refl)). inversion ND; subst.
    set (m1 := store b None m).
    assert (K : exists m', deallocate l m1 = Some m' /\ forall a, m' a = if has l a then None else m1 a).
    { apply (IH m1 (filter (fun a => negb (arr_eqb b a)) L)).
      - assumption.
      - intros a Ha. specialize (HI a (or_intror Ha)). unfold has in *. rewrite existsb_exists in *.
        destruct HI as (x & Hx & Ex). exists x. split; [|exact Ex]. apply filter_In. split; [exact Hx|].
        assert (a = x) by (destruct a, x; try discriminate; reflexivity). subst x.
        destruct (arr_eqb b a) eqn:Eb; [|reflexivity].
        assert (b = a) by (destruct b, a; try discriminate; reflexivity). subst. contradiction.
      - intro a. unfold m1, store. destruct (arr_eqb b a) eqn:Eb.
        + assert (b = a) by (destruct b, a; try discriminate; reflexivity). subst a.
          replace (has _ b) with false; [reflexivity|]. symmetry. unfold has.
          apply Bool.not_true_iff_false. rewrite existsb_exists. intros (x & Hx & Ex).
          apply filter_In in Hx. destruct Hx as (_ & Hx). destruct (arr_eqb b x) eqn:E'; [discriminate Hx|].
          congruence.
        + rewrite HM. replace (has (filter (fun a0 => negb (arr_eqb b a0)) L) a) with (has L a); [reflexivity|].
          unfold has. apply Bool.eq_iff_eq_true. rewrite !existsb_exists. split.
          * intros (x & Hx & Ex). exists x. split; [|exact Ex]. apply filter_In. split; [exact Hx|].
            assert (a = x) by (destruct a, x; try discriminate; reflexivity). subst x. rewrite Eb. reflexivity.
          * intros (x & Hx & Ex). apply filter_In in Hx. exists x. tauto. }
    destruct K as (m' & E & HM'). exists m'. split; [exact E|]. intro a. rewrite HM'.
    unfold has. cbn [existsb]. destruct (arr_eqb b a) eqn:Eb.
    + assert (Es : arr_eqb a b = true) by (destruct b, a; try discriminate; reflexivity). rewrite Es. cbn [orb].
      unfold m1, store. rewrite Eb. destruct (existsb (arr_eqb a) l); reflexivity.
    + assert (Es : arr_eqb a b = false) by (destruct b, a; try discriminate; reflexivity). rewrite Es. cbn [orb].
      unfold m1, store. rewrite Eb. reflexivity.
Qed.
Lemma dealloc_params_holds m L n : holds m L n ->
  forall a, dealloc_clawparams m a = if has params a then None else m a.
Proof. intros _ a. destruct a; reflexivity. Qed.

Lemma delete_mem l c n m : documented l c -> holds m (all_arrays l c) n ->
  exists m1 m2, dealloc_workspace c (dealloc_clawparams m) = Some m1 /\ dealloc_recon l c m1 = Some m2 /\
    forall a, m2 a = None.
Proof.
  intros D H.
  set (L0 := work ++ (if (1 <? c)%Z then [Evl; Evr] else []) ++ recon_arrays l c).
  assert (H0 : holds (dealloc_clawparams m) L0 n).
  { intro a. rewrite (dealloc_params_holds m _ _ H), H. unfold L0.
    destruct (options_cases l c D) as [(El & [Ec|[Ec|Ec]])|(El & [Ec|[Ec|[Ec|Ec]]])]; subst l c; destruct a; reflexivity. }
  set (m0 := dealloc_clawparams m) in *. unfold dealloc_workspace.
  assert (Hq : m0 Ql = Some n) by (rewrite H0; reflexivity). rewrite Hq.
  destruct (deallocate_all n work m0 L0) as (m1 & E1 & H1).
  { unfold work. repeat constructor; cbn; intuition discriminate. }
  { intros a Ha. cbn in Ha. decompose [or] Ha; subst; try reflexivity; contradiction. }
  { exact H0. }
  rewrite E1.
  set (L1 := (if (1 <? c)%Z then [Evl; Evr] else []) ++ recon_arrays l c).
  assert (H1' : holds m1 L1 n).
  { intro a. rewrite H1, H0. unfold L1, L0.
    destruct (options_cases l c D) as [(El & [Ec|[Ec|Ec]])|(El & [Ec|[Ec|[Ec|Ec]]])]; subst l c; destruct a; reflexivity. }
  assert (K : exists m2, (if (1 <? c)%Z then deallocate [Evl; Evr] m1 else Some m1) = Some m2 /\ holds m2 (recon_arrays l c) n).
  { destruct (1 <? c)%Z eqn:Ec1.
    - destruct (deallocate_all n [Evl; Evr] m1 L1) as (m2 & E2 & H2).
      { repeat constructor; cbn; intuition discriminate. }
      { intros a Ha. unfold L1. cbn in Ha. decompose [or] Ha; subst; try reflexivity; contradiction. }
      { exact H1'. }
      exists m2. split; [exact E2|]. intro a. rewrite H2, H1'. unfold L1.
      destruct (options_cases l c D) as [(El & [Ec|[Ec|Ec]])|(El & [Ec|[Ec|[Ec|Ec]]])]; subst l c; try discriminate Ec1;
        destruct a; reflexivity.
    - exists m1. split; [reflexivity|]. exact H1'. }
  destruct K as (m2 & E2 & H2). exists m2.
  destruct (deallocate_all n (recon_arrays l c) m2 (recon_arrays l c)) as (m3 & E3 & H3).
  { destruct (options_cases l c D) as [(El & [Ec|[Ec|Ec]])|(El & [Ec|[Ec|[Ec|Ec]]])]; subst l c; cbn;
      repeat constructor; cbn; intuition discriminate. }
  { intros a Ha. unfold has. apply existsb_exists. exists a. split; [exact Ha|]. destruct a; reflexivity. }
  { exact H2. }
  exists m3. split; [exact E2|]. split.
  - destruct (options_cases l c D) as [(El & [Ec|[Ec|Ec]])|(El & [Ec|[Ec|[Ec|Ec]]])]; subst l c; exact E3.
  - intro a. rewrite H3, H2. destruct (has (recon_arrays l c) a); reflexivity.
Qed.

Lemma evaluate_ok s v w l c : documented l c -> f_lim w = l -> f_char w = c ->
  holds (f_mem w) (all_arrays l c) (o_size v) ->
  evaluate s v w = Ok (mkSession (f_mem w) (f_lim w) (f_char w) (f_solvers w) (f_log w ++ [(s, l, c)])).
Proof.
  intros D El Ec H. unfold evaluate. rewrite El, Ec.
  assert (K : exists L, used_by_flux l c = Some L /\ forall a, In a L -> has (all_arrays l c) a = true).
  { destruct (options_cases l c D) as [(E1 & [E2|[E2|E2]])|(E1 & [E2|[E2|[E2|E2]]])]; rewrite E1, E2; eexists; (split; [reflexivity|]);
      intros a Ha; cbn in Ha; decompose [or] Ha; subst; try reflexivity; contradiction. }
  destruct K as (L & EL & HL). rewrite EL.
  replace (existsb _ L) with false.
  2: { symmetry. apply Bool.not_true_iff_false. rewrite existsb_exists. intros (a & Ha & E). rewrite H, (HL a Ha) in E. discriminate. }
  replace (existsb _ L) with false.
  2: { symmetry. apply Bool.not_true_iff_false. rewrite existsb_exists. intros (a & Ha & E). rewrite H, (HL a Ha) in E.
       rewrite Z.eqb_refl in E. discriminate. }
  reflexivity.
Qed.

Lemma nth_replaced {A} (l : list A) s v i : (s < length l)%nat ->
  nth_error (firstn s l ++ v :: skipn (S s) l) i = if Nat.eqb i s then Some v else nth_error l i.
Proof.
  intro H. destruct (Nat.eqb_spec i s) as [->|N].
  - rewrite nth_error_app2 by (rewrite firstn_length; lia).
    rewrite firstn_length. replace (s - Nat.min s (length l))%nat with 0%nat by lia. reflexivity.
  - destruct (Nat.lt_ge_cases i s) as [L|L].
    + rewrite nth_error_app1 by (rewrite firstn_length; lia). revert l i H N L.
      induction s as [|s IH]; intros l i H N L; [lia|]. destruct l as [|a l]; [cbn in H; lia|].
      destruct i as [|i]; [reflexivity|]. cbn. apply IH; cbn in H; lia.
    + rewrite nth_error_app2 by (rewrite firstn_length; lia). rewrite firstn_length.
      replace (i - Nat.min s (length l))%nat with (S (i - S s))%nat by lia. cbn [nth_error].
      assert (K : i = (S s + (i - S s))%nat) by lia. rewrite K at 2. clear K H N L.
      remember (S s) as t. clear Heqt. remember (i - t)%nat as j. clear Heqj. revert l. induction t as [|t IH]; intro l.
      * reflexivity.
      * destruct l as [|a l]; [destruct j; reflexivity|]. cbn. apply IH.
Qed.
Lemma nth_error_lt {A} (l : list A) i v : nth_error l i = Some v -> (i < length l)%nat.
Proof. intro H. apply nth_error_Some. congruence. Qed.
Lemma nth_error_snoc {A} (l : list A) a i :
  nth_error (l ++ [a]) i = if Nat.eqb i (length l) then Some a else nth_error l i.
Proof.
  destruct (Nat.eqb_spec i (length l)) as [->|N].
  - rewrite nth_error_app2, Nat.sub_diag by lia. reflexivity.
  - destruct (Nat.lt_ge_cases i (length l)).
    + apply nth_error_app1. assumption.
    + rewrite nth_error_app2 by lia. destruct (i - length l)%nat as [|k] eqn:E; [lia|]. cbn.
      rewrite (proj2 (nth_error_None l i)) by lia. destruct k; reflexivity.
Qed.

(** What the session looks like when the program has reached the plan *)
Definition entry (p : plan) (s : nat) (v : solver) : option (Z * Z * Z) -> Prop := fun k =>
  match k with
  | Some (l, c, n) => o_alive v = true /\ o_lim v = l /\ o_char v = c /\ o_size v = n /\
                      (o_set_up v = true <-> in_use p = Some s)
  | None => o_alive v = false
  end.
Definition fits (p : plan) (w : session) : Prop :=
  length (known p) = length (f_solvers w) /\
  (forall s v k, nth_error (f_solvers w) s = Some v -> nth_error (known p) s = Some k -> entry p s v k) /\
  match in_use p with
  | None => forall a, f_mem w a = None
  | Some s => exists l c n, nth_error (known p) s = Some (Some (l, c, n)) /\ documented l c /\
                f_lim w = l /\ f_char w = c /\ holds (f_mem w) (all_arrays l c) n
  end.

Lemma known_alive p w s l c n : fits p w -> nth_error (known p) s = Some (Some (l, c, n)) ->
  exists b, nth_error (f_solvers w) s = Some (mkSolver l c n b true) /\
            alive w s = Some (mkSolver l c n b true) /\ (b = true <-> in_use p = Some s).
Proof.
  intros (HL & HE & _) HK.
  destruct (nth_error (f_solvers w) s) as [v|] eqn:Ev.
  - pose proof (HE s v _ Ev HK) as K. cbn in K. destruct v as [vl vc vn vb va]. cbn in K.
    destruct K as (K1 & K2 & K3 & K4 & K5). subst. exists vb. split; [reflexivity|]. split; [|exact K5].
    unfold alive. rewrite Ev. reflexivity.
  - apply nth_error_None in Ev. apply nth_error_lt in HK. lia.
Qed.

Lemma fits_replace p w s k v use m lim ch log :
  fits p w -> (s < length (known p))%nat ->
  entry (mkPlan (set_known s k p) use) s v k ->
  (forall i, i <> s -> (in_use p = Some i <-> use = Some i)) ->
  (match use with
   | None => forall a, m a = None
   | Some u => exists l c n, nth_error (set_known s k p) u = Some (Some (l, c, n)) /\ documented l c /\
                lim = l /\ ch = c /\ holds m (all_arrays l c) n
   end) ->
  fits (mkPlan (set_known s k p) use)
       (mkSession m lim ch (firstn s (f_solvers w) ++ v :: skipn (S s) (f_solvers w)) log).
Proof.
  intros (HL & HE & HU) Hs Hv HO HM. unfold fits, set_known in *. cbn [known in_use f_solvers f_mem f_lim f_char] in *.
  split; [|split; [|exact HM]].
  - rewrite !app_length, !firstn_length. cbn [length]. rewrite !skipn_length. lia.
  - intros i v' k' Ev Ek. rewrite nth_replaced in Ev by lia. rewrite nth_replaced in Ek by lia.
    destruct (Nat.eqb_spec i s) as [->|N].
    + injection Ev as <-. injection Ek as <-. exact Hv.
    + pose proof (HE i v' k' Ev Ek) as K. destruct k' as [[[l c] n]|]; [|exact K]. cbn in *.
      destruct K as (K1 & K2 & K3 & K4 & K5). repeat (split; [assumption|]). rewrite K5. apply HO. exact N.
Qed.

Theorem one_at_a_time_correct p os log : one_at_a_time p os log -> forall w, fits p w ->
  exists w', exec_all os w = Ok w' /\ f_log w' = f_log w ++ log.
Proof.
  induction 1 as [p | p l c n os log _ IH | p s l c l' c' n os log HK HN _ IH | p s l c n os log HK D HU _ IH
                 | p s l c n os log HK HN _ IH | p s l c n os log HK HN _ IH]; intros w F.
  - exists w. split; [reflexivity|]. symmetry. apply app_nil_r.
  - cbn [exec_all exec].
    destruct (IH (mkSession (f_mem w) (f_lim w) (f_char w) (f_solvers w ++ [mkSolver l c n false true]) (f_log w)))
      as (w' & E & L); [|exists w'; split; [exact E|exact L]].
    destruct F as (HL & HE & HM). unfold fits. cbn [known in_use f_solvers f_mem f_lim f_char]. split; [|split].
    + rewrite !app_length. cbn. lia.
    + intros i v k Ev Ek. rewrite nth_error_snoc in Ev. rewrite nth_error_snoc, HL in Ek.
      destruct (Nat.eqb_spec i (length (f_solvers w))) as [Ei|N].
      * injection Ev as <-. injection Ek as <-. cbn. repeat (split; [reflexivity|]). split; [discriminate|].
        intro U. rewrite U in HM. destruct HM as (l0 & c0 & n0 & K & _). apply nth_error_lt in K. lia.
      * exact (HE i v k Ev Ek).
    + destruct (in_use p) as [u|]; [|exact HM]. destruct HM as (l0 & c0 & n0 & K & R). exists l0, c0, n0.
      split; [|exact R]. rewrite nth_error_app1; [exact K|]. apply (nth_error_lt _ _ _ K).
  - destruct (known_alive _ _ _ _ _ _ F HK) as (b & Ev & Ea & Eb). cbn [exec_all exec]. rewrite Ea. cbn [o_size o_set_up].
    match goal with |- exists w', exec_all os ?w2 = _ /\ _ =>
      destruct (IH w2) as (w' & E & L); [|exists w'; split; [exact E|exact L]] end. unfold set_solver.
    apply (fits_replace p w s (Some (l', c', n)) _ (in_use p)); try assumption.
    + apply (nth_error_lt _ _ _ HK).
    + cbn. repeat (split; [reflexivity|]). exact Eb.
    + intros; reflexivity.
    + destruct F as (HL & HE & HM). destruct (in_use p) as [u|]; [|exact HM].
      destruct HM as (l0 & c0 & n0 & K & R). exists l0, c0, n0. split; [|exact R].
      unfold set_known. rewrite nth_replaced by apply (nth_error_lt _ _ _ HK).
      destruct (Nat.eqb_spec u s) as [->|N]; [congruence|exact K].
  - destruct (known_alive _ _ _ _ _ _ F HK) as (b & Ev & Ea & Eb).
    cbn [exec_all exec]. unfold evolve. rewrite Ea. cbn [o_set_up].
    assert (K : exists w1, (if b then Ok w else setup s w) = Ok w1 /\ f_log w1 = f_log w /\
                  fits (mkPlan (known p) (Some s)) w1 /\ f_lim w1 = l /\ f_char w1 = c /\
                  holds (f_mem w1) (all_arrays l c) n).
    { destruct b.
      - exists w. assert (U : in_use p = Some s) by (apply Eb; reflexivity).
        assert (Ep : mkPlan (known p) (Some s) = p) by (destruct p; cbn in *; congruence). rewrite Ep.
        split; [reflexivity|]. split; [reflexivity|]. split; [exact F|].
        destruct F as (HL & HE & HM). rewrite U in HM. destruct HM as (l0 & c0 & n0 & K0 & D0 & E1 & E2 & H0).
        rewrite HK in K0. injection K0 as <- <- <-. tauto.
      - assert (U : in_use p = None).
        { destruct HU as [HU|HU]; [exact HU|]. apply Eb in HU. discriminate HU. }
        assert (M0 : forall a, f_mem w a = None).
        { destruct F as (HL & HE & HM). rewrite U in HM. exact HM. }
        destruct (setup_mem l c n (f_mem w) D M0) as (m1 & m2 & m3 & E1 & E2 & E3 & H3).
        unfold setup. rewrite Ea. cbn [o_size o_char o_lim]. rewrite E1, E2, E3. eexists. split; [reflexivity|].
        unfold set_solver. cbn [f_mem f_lim f_char f_solvers f_log]. split; [reflexivity|].
        split; [|split; [reflexivity|split; [reflexivity|exact H3]]].
        assert (Hs : (s < length (known p))%nat) by apply (nth_error_lt _ _ _ HK).
        assert (Ek : known p = set_known s (Some (l, c, n)) p).
        { unfold set_known. clear -HK. revert s HK. induction (known p) as [|a r IHr]; intros s HK.
          - destruct s; discriminate HK.
          - destruct s as [|s]; cbn in *; [congruence|]. f_equal. apply IHr. exact HK. }
        rewrite Ek.
        apply fits_replace; try assumption.
        + cbn. repeat (split; [reflexivity|]). split; intros; reflexivity.
        + intros i N. rewrite U. split; [discriminate|]. intro K. injection K as K. congruence.
        + exists l, c, n. rewrite <- Ek. split; [exact HK|]. split; [exact D|]. split; [reflexivity|].
          split; [reflexivity|exact H3]. }
    destruct K as (w1 & E1 & L1 & F1 & El & Ec & H1). rewrite E1.
    rewrite (evaluate_ok s (mkSolver l c n b true) w1 l c D El Ec H1).
    destruct (IH (mkSession (f_mem w1) (f_lim w1) (f_char w1) (f_solvers w1) (f_log w1 ++ [(s, l, c)]))) as (w' & E & L).
    + exact F1.
    + exists w'. split; [exact E|]. rewrite L. cbn [f_log]. rewrite L1, <- app_assoc. reflexivity.
  - destruct (known_alive _ _ _ _ _ _ F HK) as (b & Ev & Ea & Eb). cbn [exec_all exec]. unfold delete. rewrite Ea.
    cbn [o_set_up o_lim o_char o_size].
    destruct b; [exfalso; apply HN; apply Eb; reflexivity|].
    match goal with |- exists w', exec_all os ?w2 = _ /\ _ =>
      destruct (IH w2) as (w' & E & L); [|exists w'; split; [exact E|exact L]] end. unfold set_solver.
    apply (fits_replace p w s None _ (in_use p)); try assumption.
    + apply (nth_error_lt _ _ _ HK).
    + reflexivity.
    + intros; reflexivity.
    + destruct F as (HL & HE & HM). destruct (in_use p) as [u|]; [|exact HM].
      destruct HM as (l0 & c0 & n0 & K & R). exists l0, c0, n0. split; [|exact R].
      unfold set_known. rewrite nth_replaced by apply (nth_error_lt _ _ _ HK).
      destruct (Nat.eqb_spec u s) as [->|N]; [congruence|exact K].
  - destruct (known_alive _ _ _ _ _ _ F HK) as (b & Ev & Ea & Eb). cbn [exec_all exec]. unfold delete. rewrite Ea.
    cbn [o_set_up o_lim o_char o_size].
    assert (Hb : b = true) by (apply Eb; exact HN). subst b.
    pose proof F as (HL & HE & HM). rewrite HN in HM. destruct HM as (l0 & c0 & n0 & K & D & E1 & E2 & H).
    rewrite HK in K. injection K as <- <- <-.
    destruct (delete_mem l c n (f_mem w) D H) as (m1 & m2 & Em1 & Em2 & H2). rewrite Em1, E1, E2, Em2.
    unfold set_solver. cbn [f_mem f_lim f_char f_solvers f_log].
    match goal with |- exists w', exec_all os ?w2 = _ /\ _ => destruct (IH w2) as (w' & E & L) end.
    + apply fits_replace; try assumption.
      * apply (nth_error_lt _ _ _ HK).
      * reflexivity.
      * intros i N. rewrite HN. split; [intro K; injection K as K; congruence|discriminate].
    + exists w'. split; [exact E|exact L].
Qed.

Lemma fits_start : fits nothing start.
Proof.
  split; [reflexivity|]. split.
  - intros s v k K. destruct s; discriminate K.
  - intro a. reflexivity.
Qed.

(** At most one solver in use, whatever the program *)
Definition single (w : session) : Prop :=
  (forall s t u v, nth_error (f_solvers w) s = Some u -> nth_error (f_solvers w) t = Some v ->
     o_alive u = true -> o_set_up u = true -> o_alive v = true -> o_set_up v = true -> s = t) /\
  (forall s u, nth_error (f_solvers w) s = Some u -> o_alive u = true -> o_set_up u = true -> f_mem w Xlower <> None).

Lemma allocate_keeps n l a : forall m m', allocate n l m = Some m' -> m a <> None -> m' a <> None.
Proof.
  induction l as [|b l IH]; intros m m' E H; cbn [allocate] in E; [congruence|].
  destruct (m b); [discriminate E|]. apply (IH _ _ E). unfold store. destruct (arr_eqb b a); [discriminate|exact H].
Qed.
Lemma alloc_workspace_keeps n c a m m' : alloc_workspace n c m = Some m' -> m a <> None -> m' a <> None.
Proof.
  unfold alloc_workspace. destruct (allocate n work m) as [m1|] eqn:E1; [|discriminate]. intros E H.
  pose proof (allocate_keeps _ _ a _ _ E1 H) as H1.
  destruct (1 <? c)%Z; [exact (allocate_keeps _ _ a _ _ E H1)|congruence].
Qed.
Lemma alloc_recon_keeps n l c a m m' : alloc_recon n l c m = Some m' -> m a <> None -> m' a <> None.
Proof.
  unfold alloc_recon. intros E H.
  repeat match type of E with (match ?x with _ => _ end) = _ => destruct x end;
    first [exact (allocate_keeps _ _ a _ _ E H) | congruence].
Qed.

Lemma single_replace w s v m lim ch log : (s < length (f_solvers w))%nat -> single w ->
  (forall t u, t <> s -> nth_error (f_solvers w) t = Some u -> o_alive u = true -> o_set_up u = true ->
     (o_alive v = true -> o_set_up v = true -> False) /\ m Xlower <> None) ->
  (o_alive v = true -> o_set_up v = true -> m Xlower <> None) ->
  single (mkSession m lim ch (firstn s (f_solvers w) ++ v :: skipn (S s) (f_solvers w)) log).
Proof.
  intros Hs (H1 & H2) HO HV. split; cbn [f_solvers f_mem].
  - intros i j u u' Ei Ej A1 A2 B1 B2. rewrite nth_replaced in Ei by exact Hs. rewrite nth_replaced in Ej by exact Hs.
    destruct (Nat.eqb_spec i s) as [Es|Ns]; destruct (Nat.eqb_spec j s) as [Es'|Ns'].
    + congruence.
    + injection Ei as Ei. subst u. destruct (HO j u' Ns' Ej B1 B2) as (K & _). destruct (K A1 A2).
    + injection Ej as Ej. subst u'. destruct (HO i u Ns Ei A1 A2) as (K & _). destruct (K B1 B2).
    + exact (H1 i j u u' Ei Ej A1 A2 B1 B2).
  - intros i u Ei A1 A2. rewrite nth_replaced in Ei by exact Hs.
    destruct (Nat.eqb_spec i s) as [Es|Ns].
    + injection Ei as Ei. subst u. exact (HV A1 A2).
    + exact (proj2 (HO i u Ns Ei A1 A2)).
Qed.

Lemma alive_some w s v : alive w s = Some v -> nth_error (f_solvers w) s = Some v /\ o_alive v = true.
Proof.
  unfold alive. destruct (nth_error (f_solvers w) s) as [u|]; [|discriminate].
  destruct (o_alive u) eqn:E; [|discriminate]. intro K. injection K as <-. split; [reflexivity|exact E].
Qed.

Lemma setup_single s w w' : single w -> setup s w = Ok w' -> single w'.
Proof.
  intros H. unfold setup. destruct (alive w s) as [v|] eqn:Ea; [|discriminate].
  destruct (alive_some _ _ _ Ea) as (Ev & Av).
  destruct (alloc_clawparams (o_size v) (f_mem w)) as [m1|] eqn:E1; [|discriminate].
  destruct (alloc_workspace (o_size v) (o_char v) m1) as [m2|] eqn:E2; [|discriminate].
  destruct (alloc_recon (o_size v) (o_lim v) (o_char v) m2) as [m3|] eqn:E3; [|discriminate].
  intro K. injection K as <-. unfold set_solver. cbn [f_mem f_lim f_char f_solvers f_log].
  assert (N : f_mem w Xlower = None).
  { unfold alloc_clawparams, params in E1. cbn [allocate] in E1. destruct (f_mem w Xlower); [discriminate E1|reflexivity]. }
  assert (M3 : m3 Xlower <> None).
  { apply (alloc_recon_keeps _ _ _ _ _ _ E3), (alloc_workspace_keeps _ _ _ _ _ E2).
    unfold alloc_clawparams, params in E1. cbn [allocate] in E1. rewrite N in E1. unfold store in E1.
    cbn [arr_eqb] in E1.
    destruct (f_mem w Xupper); [discriminate E1|]. destruct (f_mem w Dx); [discriminate E1|].
    destruct (f_mem w Mthlim); [discriminate E1|]. injection E1 as <-. cbn. discriminate. }
  apply single_replace; try assumption.
  - apply (nth_error_lt _ _ _ Ev).
  - intros t u _ Eu U1 U2. exfalso. exact (proj2 H t u Eu U1 U2 N).
  - intros _ _. exact M3.
Qed.

Lemma exec_single o w w' : single w -> exec o w = Ok w' -> single w'.
Proof.
  intros H. destruct o as [l c n|s l c|s|s|s]; cbn [exec].
  - intro K. injection K as <-. destruct H as (H1 & H2). split; cbn [f_solvers f_mem].
    + intros i j u v Ei Ej A1 A2 B1 B2. rewrite nth_error_snoc in Ei. rewrite nth_error_snoc in Ej.
      destruct (Nat.eqb_spec i (length (f_solvers w))) as [Ni|Ni]; [injection Ei as Ei; subst u; discriminate A2|].
      destruct (Nat.eqb_spec j (length (f_solvers w))) as [Nj|Nj]; [injection Ej as Ej; subst v; discriminate B2|].
      exact (H1 i j u v Ei Ej A1 A2 B1 B2).
    + intros i u Ei A1 A2. rewrite nth_error_snoc in Ei.
      destruct (Nat.eqb_spec i (length (f_solvers w))) as [Ni|Ni]; [injection Ei as Ei; subst u; discriminate A2|].
      exact (H2 i u Ei A1 A2).
  - destruct (alive w s) as [v|] eqn:Ea; [|discriminate]. destruct (alive_some _ _ _ Ea) as (Ev & Av).
    intro K. injection K as <-. unfold set_solver. apply single_replace; try assumption.
    + apply (nth_error_lt _ _ _ Ev).
    + intros t u Nt Eu U1 U2. split; [|exact (proj2 H t u Eu U1 U2)]. cbn. intros _ B. apply Nt.
      exact (proj1 H t s u v Eu Ev U1 U2 Av B).
    + cbn. intros _ B. exact (proj2 H s v Ev Av B).
  - exact (setup_single s w w' H).
  - unfold evolve. destruct (alive w s) as [v|] eqn:Ea; [|discriminate].
    destruct (if o_set_up v then Ok w else setup s w) as [w1|e] eqn:E1; [|discriminate].
    assert (H1 : single w1).
    { destruct (o_set_up v); [injection E1 as <-; exact H|exact (setup_single s w w1 H E1)]. }
    unfold evaluate. destruct (used_by_flux (f_lim w1) (f_char w1)) as [L|]; [|discriminate].
    destruct (existsb _ L); [discriminate|]. destruct (existsb _ L); [discriminate|].
    intro K. injection K as <-. exact H1.
  - unfold delete. destruct (alive w s) as [v|] eqn:Ea; [|discriminate]. destruct (alive_some _ _ _ Ea) as (Ev & Av).
    destruct (o_set_up v) eqn:Eu.
    + destruct (dealloc_workspace _ _) as [m1|]; [|discriminate].
      destruct (dealloc_recon _ _ m1) as [m2|]; [|discriminate].
      intro K. injection K as <-. unfold set_solver. cbn [f_mem f_lim f_char f_solvers f_log].
      apply single_replace; try assumption.
      * apply (nth_error_lt _ _ _ Ev).
      * intros t u Nt Et U1 U2. exfalso. apply Nt. exact (proj1 H t s u v Et Ev U1 U2 Av Eu).
      * cbn. discriminate.
    + intro K. injection K as <-. unfold set_solver. apply single_replace; try assumption.
      * apply (nth_error_lt _ _ _ Ev).
      * intros t u Nt Et U1 U2. split; [cbn; discriminate|exact (proj2 H t u Et U1 U2)].
      * cbn. discriminate.
Qed.
Lemma exec_all_single os : forall w w', single w -> exec_all os w = Ok w' -> single w'.
Proof.
  induction os as [|o os IH]; intros w w' H E; cbn [exec_all] in E; [congruence|].
  destruct (exec o w) as [w1|] eqn:E1; [|discriminate E]. exact (IH w1 w' (exec_single o w w1 H E1) E).
Qed.
Lemma single_start : single start.
Proof. split; [intros s t u v K; destruct s; discriminate K|intros s u K; destruct s; discriminate K]. Qed.
