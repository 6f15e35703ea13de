(** Reading the beginning of an array: proofs. *)
From Coq Require Import Ascii String.
From Verif Require Import Base FormatModel FormatSpec AsciiModel AsciiSpec FormatProofs FormatProofs2 AsciiProofs AsciiProofs2 CrashModel CrashSpec CrashProofs.
Open Scope Q_scope.

Lemma floats_nth ws : forall vals ws' vals' k i, floats ws = Some vals -> floats ws' = Some vals' ->
  firstn k ws = firstn k ws' -> (i < k)%nat -> nth i vals 0 = nth i vals' 0.
Proof.
  induction ws as [|x ws IH]; intros vals ws' vals' k i E E' F L.
  - destruct k; [lia|]. destruct ws'; [|discriminate F]. cbn [floats] in *. congruence.
  - destruct k; [lia|]. destruct ws' as [|x' ws']; [discriminate F|]. cbn [firstn] in F.
    assert (Fx : x = x') by congruence. assert (Fw : firstn k ws = firstn k ws') by congruence. subst x'.
    cbn [floats] in E, E'. destruct (parse_float x) as [v|]; [|discriminate E].
    destruct (floats ws) as [vs|] eqn:W; [|discriminate E]. destruct (floats ws') as [vs'|] eqn:W'; [|discriminate E'].
    assert (vals = v :: vs) by congruence. assert (vals' = v :: vs') by congruence. subst.
    destruct i as [|i]; [reflexivity|]. cbn [nth]. apply (IH vs ws' vs' k i eq_refl W' Fw). lia.
Qed.

(** a cell of which the end is missing: all numbers but the last are right, and no number is missing *)
Lemma cell_cut xs u w : Forall double_range xs -> xs <> [] ->
  u ++ w = concat (map fmt_18_8e xs) ++ [c_nl] -> w <> [] ->
  cut_ok (read_cell (length xs) (lines u))
    (fun vals => ~ starts_word w /\ forall i, (i < length xs - 1)%nat -> nth i vals 0 = nth i (map reread xs) 0).
Proof.
  intros H NX E N. assert (U : no_nl u).
  { destruct (exists_last N) as (w' & c & Ew). rewrite Ew, app_assoc in E. apply app_inj_tail in E. destruct E as [E _].
    pose proof (no_nl_row xs) as K. rewrite <- E in K. intros I. apply K. apply in_or_app. left. exact I. }
  pose proof (words_row xs H) as WR. rewrite <- E in WR.
  assert (LX : (1 <= length xs)%nat) by (destruct xs; [congruence|cbn [length]; lia]).
  unfold read_cell. destruct (lines_short u U) as [->| ->].
  - cbn [cell_words]. replace (length xs <=? length (@nil text))%nat with false by (symmetry; apply Nat.leb_gt; cbn [length]; lia). exact I.
  - cbn [cell_words]. replace (length xs <=? length (@nil text))%nat with false by (symmetry; apply Nat.leb_gt; cbn [length]; lia).
    cbn [app]. destruct (length xs <=? length (words u))%nat eqn:C; [|exact I]. apply Nat.leb_le in C. cbn [bind].
    pose proof (words_from_le [] u w) as LE. fold (words u) (words (u ++ w)) in LE. rewrite WR, map_length in LE.
    assert (L : length (words u) = length xs) by lia.
    rewrite <- L, firstn_all. destruct (floats (words u)) as [vals|] eqn:FL; [|exact I].
    split; [reflexivity|]. split.
    + intros K. pose proof (words_start [] u w K) as LT. fold (words u) (words (u ++ w)) in LT. rewrite WR, map_length in LT. lia.
    + intros i Hi. pose proof (words_same [] u w) as S. fold (words u) (words (u ++ w)) in S. rewrite WR in S.
      exact (floats_nth (words u) vals (map fmt_e xs) (map reread xs) _ i FL (floats_fmt xs) S Hi).
Qed.

(** ** the loops *)
Lemma read_cell_fails nv : (1 <= nv)%nat -> fails (read_cell nv).
Proof.
  intros H. unfold fails, read_cell. cbn [cell_words].
  replace (nv <=? length (@nil text))%nat with false by (symmetry; apply Nat.leb_gt; cbn [length]; lia). eexists. reflexivity.
Qed.
Lemma loops_fail nv : (1 <= nv)%nat -> forall rns, Forall (fun n => (0 < n)%Z) rns -> fails (read_loops nv rns).
Proof.
  intros H. induction rns as [|n rns IH]; intros P.
  - destruct (read_cell_fails nv H) as [e E]. exists e. cbn [read_loops]. rewrite E. reflexivity.
  - apply Forall_cons_iff in P. destruct P as [P1 P2]. destruct (IH P2) as [e E]. exists e. cbn [read_loops].
    destruct (Z.to_nat n) eqn:K; [lia|]. cbn [read_many]. rewrite E. reflexivity.
Qed.

(** the entries in the order of the loops *)
Definition last_rev (nv : nat) (rns : list Z) (m : Z) (jx : list Z) : Prop :=
  m = (Z.of_nat nv - 1)%Z /\ jx = map (fun n => n - 1)%Z rns.
Lemma starts_word_nl w : ~ starts_word w -> ~ starts_word (w ++ [c_nl]).
Proof.
  intros H (a & c & d & b & E & Hc & Hd). apply H.
  destruct (list_eq_dec ascii_dec b []) as [->|Nb].
  - exfalso. replace (a ++ [c; d]) with ((a ++ [c]) ++ [d]) in E by (rewrite <- app_assoc; reflexivity).
    apply app_inj_tail in E. destruct E as [_ <-]. discriminate Hd.
  - destruct (exists_last Nb) as (b' & x & ->). exists a, c, d, b'.
    replace (a ++ c :: d :: b' ++ [x]) with ((a ++ c :: d :: b') ++ [x]) in E by (rewrite <- app_assoc; reflexivity).
    apply app_inj_tail in E. destruct E as [E _]. split; [exact E|]. split; assumption.
Qed.
Lemma starts_word_short w : (length w <= 1)%nat -> ~ starts_word w.
Proof. intros L (a & c & d & b & -> & _). rewrite app_length in L. cbn [length] in L. lia. Qed.

Definition right_but_last (q : field) (nv : nat) (rns ix : list Z) (w : text) (f : list Z -> list Q) : Prop :=
  ~ starts_word w /\ forall m jx, (0 <= m < Z.of_nat nv)%Z -> cell_of rns jx -> ~ last_rev nv rns m jx ->
    nth (Z.to_nat m) (f jx) 0 = reread (q m (rev jx ++ ix)).

Lemma nth_reread (q : field) nv ix m : (0 <= m < Z.of_nat nv)%Z ->
  nth (Z.to_nat m) (map (fun m => reread (q m ix)) (range (Z.of_nat nv))) 0 = reread (q m ix).
Proof.
  intros Hm. rewrite (nth_indep _ 0 (reread (q 0%Z ix))) by (rewrite map_length, range_length; lia).
  rewrite (map_nth (fun m => reread (q m ix))). rewrite range_nth by exact Hm. reflexivity.
Qed.

Lemma loops_cut q nv : (1 <= nv)%nat -> forall rns ix u w,
  Forall (fun n => (0 < n)%Z) rns ->
  (forall m jx, (0 <= m < Z.of_nat nv)%Z -> cell_of rns jx -> double_range (q m (rev jx ++ ix))) ->
  u ++ w = write_loops q nv rns ix -> w <> [] ->
  cut_ok (read_loops nv rns (lines u)) (right_but_last q nv rns ix w).
Proof.
  intros Hnv. induction rns as [|n rns IH]; intros ix u w P H E N.
  - cbn [read_loops write_loops] in *.
    pose proof (cell_cut (map (fun m => q m ix) (range (Z.of_nat nv))) u w) as C.
    rewrite map_length, range_length, Nat2Z.id, !map_map in C.
    assert (C1 : Forall double_range (map (fun m => q m ix) (range (Z.of_nat nv)))).
    { apply Forall_forall. intros x Hx. apply in_map_iff in Hx. destruct Hx as (m & <- & Hm). apply range_in in Hm.
      apply (H m [] Hm). constructor. }
    assert (C2 : map (fun m => q m ix) (range (Z.of_nat nv)) <> []).
    { intros K. apply (f_equal (@length Q)) in K. rewrite map_length, range_length in K. cbn [length] in K. lia. }
    specialize (C C1 C2 E N). destruct (read_cell nv (lines u)) as [(vals & h)|e]; [|exact I].
    destruct C as [-> [C3 C4]]. cbn [bind]. split; [reflexivity|]. split; [exact C3|].
    intros m jx Hm Hj NL. inversion Hj; subst. cbn [rev app].
    assert (Lm : (Z.to_nat m < nv - 1)%nat).
    { destruct (Z.eq_dec m (Z.of_nat nv - 1)) as [->|Ne]; [exfalso; apply NL; split; reflexivity|lia]. }
    rewrite (C4 (Z.to_nat m) Lm). exact (nth_reread q nv ix m Hm).
  - apply Forall_cons_iff in P. destruct P as [P1 P2]. cbn [read_loops write_loops] in *.
    set (rd := fun h0 => '(b, h1) <- read_loops nv rns h0 ;; Ok (b, match rns with [] => h1 | _ => tl h1 end)).
    set (wr := fun j => write_loops q nv rns (j :: ix) ++ match rns with [] => [] | _ => [c_nl] end) in *.
    assert (RN : forall j, (0 <= j < n)%Z -> forall m jx, (0 <= m < Z.of_nat nv)%Z -> cell_of rns jx -> double_range (q m (rev jx ++ j :: ix))).
    { intros j Hj m jx Hm Hx. replace (rev jx ++ j :: ix) with (rev (j :: jx) ++ ix) by (cbn [rev]; rewrite <- app_assoc; reflexivity).
      apply H; [exact Hm|]. constructor; assumption. }
    assert (FAIL : fails rd).
    { destruct (loops_fail nv Hnv rns P2) as [e Ee]. exists e. unfold rd. rewrite Ee. reflexivity. }
    pose proof (read_many_cut rd wr
        (fun j b => forall jx, cell_of rns jx ->
            b jx = map (fun m => reread (q m (rev jx ++ j :: ix))) (range (Z.of_nat nv)))
        (fun j w b => right_but_last q nv rns (j :: ix) w b) FAIL (range n)) as C.
    assert (C1 : forall a r, In a (range n) -> exists b, rd (lines (wr a ++ r)) = Ok (b, lines r) /\
        forall jx, cell_of rns jx -> b jx = map (fun m => reread (q m (rev jx ++ a :: ix))) (range (Z.of_nat nv))).
    { intros j r Hj. apply range_in in Hj.
      destruct (read_loops_ok q nv Hnv rns (j :: ix) (match rns with [] => [] | _ => [c_nl] end ++ r) (RN j Hj)) as (f & Ef & Hf).
      exists f. split; [|exact Hf]. unfold rd, wr. rewrite <- app_assoc, Ef. cbn [bind]. destruct rns; reflexivity. }
    assert (C2 : forall j u' w', In j (range n) -> u' ++ w' = wr j -> w' <> [] -> cut_ok (rd (lines u')) (right_but_last q nv rns (j :: ix) w')).
    { intros j u' w' Hj E' N'. apply range_in in Hj. unfold wr in E'.
      destruct (beginning_app u' w' _ _ E') as [(u2 & -> & E2)|(w1 & E1 & N1 & ->)].
      - destruct (read_loops_ok q nv Hnv rns (j :: ix) u2 (RN j Hj)) as (f & Ef & Hf). unfold rd. rewrite Ef. cbn [bind].
        destruct rns as [|r0 rns']; [apply app_eq_nil in E2; destruct E2 as [_ ->]; congruence|].
        assert (u2 = []).
        { destruct u2 as [|c u2]; [reflexivity|]. destruct w' as [|c' w']; [congruence|].
          apply (f_equal (@length ascii)) in E2. cbn [app length] in E2. rewrite app_length in E2. cbn [length] in E2. lia. }
        subst u2. cbn [app] in E2. subst w'. split; [reflexivity|]. split; [apply starts_word_short; cbn [length]; lia|].
        intros m jx Hm Hx _. rewrite (Hf jx Hx). apply (nth_reread q nv (rev jx ++ j :: ix) m Hm).
      - specialize (IH (j :: ix) u' w1 P2 (RN j Hj) E1 N1). unfold rd.
        destruct (read_loops nv rns (lines u')) as [(f & h)|e]; [|exact I]. cbn [bind]. destruct IH as [-> [K1 K2]].
        split; [destruct rns; reflexivity|]. split; [|exact K2].
        destruct rns; [rewrite app_nil_r; exact K1|apply starts_word_nl, K1]. }
    specialize (C C1 C2 u w E N). rewrite range_length in C. fold rd.
    destruct (read_many rd (Z.to_nat n) (lines u)) as [(bs & h)|e]; [|exact I]. cbn [bind].
    destruct C as [-> (l1 & j & bs1 & b & El & Eb & F & [K1 K2])]. split; [reflexivity|]. split; [exact K1|].
    intros m jx Hm Hj NL. inversion Hj as [|i n' jx' rns' Hi Hjx]; subst. cbv beta iota.
    assert (Lr : Z.to_nat n = S (length l1)) by (rewrite <- (range_length n), El, app_length; cbn [length]; lia).
    assert (Lb : length bs1 = length l1) by (symmetry; clear - F; induction F; [reflexivity|cbn [length]; congruence]).
    assert (Ri : nth (Z.to_nat i) (range n) 0%Z = i) by (apply range_nth; exact Hi).
    cbn [rev]. rewrite <- app_assoc. cbn [app].
    destruct (Nat.eq_dec (Z.to_nat i) (length l1)) as [Ei|Ni].
    + rewrite Ei. rewrite <- Lb at 1. rewrite app_nth2 by lia. rewrite Nat.sub_diag. cbn [nth].
      rewrite Ei, El, app_nth2, Nat.sub_diag in Ri by lia. cbn [nth] in Ri. subst j.
      apply K2; [exact Hm|exact Hjx|]. intros [L1 L2]. apply NL. split; [exact L1|]. cbn [map]. f_equal; [lia|exact L2].
    + rewrite app_nth1 by lia. rewrite El, app_nth1 in Ri by lia.
      assert (K : forall jx, cell_of rns jx -> nth (Z.to_nat i) bs1 (fun _ => []) jx = map (fun m => reread (q m (rev jx ++ i :: ix))) (range (Z.of_nat nv))).
      { assert (Li : (Z.to_nat i < length l1)%nat) by lia. clear - F Ri Li. revert Ri Li. generalize (Z.to_nat i) as k.
        induction F as [|a b l bs Hab _ IH]; intros k Rk Lk; [cbn [length] in Lk; lia|].
        destruct k as [|k]; [cbn [nth] in *; subst a; exact Hab|]. cbn [nth] in *. apply IH; [exact Rk|cbn [length] in Lk; lia]. }
      rewrite (K jx' Hjx). exact (nth_reread q nv (rev jx' ++ i :: ix) m Hm).
Qed.

(** ** arrays *)
Definition array_but_last (nv : nat) (ns : list Z) (q q' : field) : Prop :=
  forall m ix, (0 <= m < Z.of_nat nv)%Z -> cell_of ns ix -> ~ last_entry nv ns m ix -> q' m ix = reread (q m ix).
Lemma array_cut p p' q nv u w : (1 <= length (p_dims p) <= 3)%nat -> (1 <= nv)%nat ->
  Forall (fun d => (0 < d_n d)%Z) (p_dims p) ->
  map d_n (p_dims p') = map d_n (p_dims p) -> finite_array nv (map d_n (p_dims p)) q ->
  u ++ w = write_loops q nv (rev (map d_n (p_dims p))) [] -> w <> [] ->
  cut_ok (read_array p' nv (lines u)) (fun q' => ~ starts_word w /\ array_but_last nv (map d_n (p_dims p)) q q').
Proof.
  intros H Hnv Pos Hp Hf E N. unfold read_array.
  assert (L : length (p_dims p') = length (p_dims p)).
  { rewrite <- (map_length d_n), Hp, map_length. reflexivity. }
  rewrite (dims_ok p' _ L H). rewrite Hp.
  pose proof (loops_cut q nv Hnv (rev (map d_n (p_dims p))) [] u w) as C.
  assert (C1 : Forall (fun n => (0 < n)%Z) (rev (map d_n (p_dims p)))).
  { apply Forall_rev. clear - Pos. induction Pos; constructor; assumption. }
  assert (C2 : forall m jx, (0 <= m < Z.of_nat nv)%Z -> cell_of (rev (map d_n (p_dims p))) jx -> double_range (q m (rev jx ++ []))).
  { intros m jx Hm Hj. rewrite app_nil_r. apply Hf; [exact Hm|].
    apply cell_of_rev in Hj. rewrite rev_involutive in Hj. exact Hj. }
  specialize (C C1 C2 E N). destruct (read_loops nv (rev (map d_n (p_dims p))) (lines u)) as [(f & h)|e]; [|exact I].
  destruct C as [-> [K1 K2]]. split; [reflexivity|]. split; [exact K1|].
  intros m ix Hm Hix NL. cbv beta. rewrite (K2 m (rev ix) Hm (cell_of_rev _ _ Hix)), rev_involutive, app_nil_r; [reflexivity|].
  intros [L1 L2]. apply NL. split; [exact L1|]. rewrite <- (rev_involutive ix), L2, <- map_rev, rev_involutive. reflexivity.
Qed.
Lemma array_fails p nv : (1 <= nv)%nat -> positive_dims p -> fails (read_array p nv).
Proof.
  intros Hnv P. unfold fails, read_array. destruct ((1 <=? length (p_dims p))%nat && (length (p_dims p) <=? 3)%nat)%bool; [|eexists; reflexivity].
  destruct (loops_fail nv Hnv (rev (map d_n (p_dims p)))) as [e E].
  - apply Forall_rev. clear - P. induction P; constructor; assumption.
  - rewrite E. eexists. reflexivity.
Qed.
