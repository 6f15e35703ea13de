(** Gauge files: printing with p digits, lines and words. *)
From Coq Require Import Ascii String.
From Verif Require Import Base FormatModel FormatSpec FormatProofs FormatProofs2 GFileModel GFileSpec.
Open Scope Q_scope.

Section Precision.
Variable p : nat.
Let P := Z.of_nat p.
Lemma P_pos : (0 <= P)%Z. Proof. unfold P. lia. Qed.
Lemma pow_p : (0 < 10 ^ P)%Z. Proof. apply Z.pow_pos_nonneg; [lia|exact P_pos]. Qed.
Lemma pow_p1 : (10 ^ (P + 1) = 10 ^ P * 10)%Z.
Proof. rewrite Z.pow_add_r by (pose proof P_pos; lia). reflexivity. Qed.

Definition value_p (me : Z * Z) : Q := inject_Z (fst me) * pow10 (snd me - P).

Lemma sci_p_spec x : 0 < x ->
  (10 ^ P <= fst (sci_p p x) < 10 ^ (P + 1))%Z /\
  Qabs (value_p (sci_p p x) - x) <= (1 # 2) * pow10 (exponent x - P).
Proof.
  intros Hx. destruct (exponent_spec x Hx) as (E1 & E2). unfold sci_p. fold P.
  pose proof pow_p as PP. pose proof pow_p1 as PP1. pose proof P_pos as P0.
  qcase_eq x 0 H0; [lra|]. cbv zeta. set (e := exponent x) in *.
  assert (K1 : 0 < pow10 (P - e)) by apply pow10_pos.
  assert (K2 : 0 < pow10 (e - P)) by apply pow10_pos.
  assert (I : pow10 (P - e) * pow10 (e - P) == 1).
  { rewrite <- pow10_plus. replace (P - e + (e - P))%Z with 0%Z by lia. reflexivity. }
  assert (B1 : inject_Z (10 ^ P) <= x * pow10 (P - e)).
  { rewrite <- (pow10_nat P) by lia. replace P with (e + (P - e))%Z at 1 by lia. rewrite pow10_plus. nra. }
  assert (B2 : x * pow10 (P - e) <= inject_Z (10 ^ (P + 1))).
  { rewrite <- (pow10_nat (P + 1)) by lia. replace (P + 1)%Z with (e + 1 + (P - e))%Z by lia. rewrite pow10_plus. nra. }
  pose proof (round_even_near (x * pow10 (P - e))) as N. set (m := round_even (x * pow10 (P - e))) in *.
  pose proof (inject_close _ _ _ N B1) as M1. pose proof (inject_close2 _ _ _ N B2) as M2.
  assert (ER : Qabs (inject_Z m * pow10 (e - P) - x) <= (1 # 2) * pow10 (e - P)).
  { setoid_replace (inject_Z m * pow10 (e - P) - x)
      with ((inject_Z m - x * pow10 (P - e)) * pow10 (e - P)).
    - rewrite Qabs_Qmult. rewrite (Qabs_pos (pow10 (e - P))) by lra.
      apply Qmult_le_compat_r; [exact N|lra].
    - setoid_replace x with (x * (pow10 (P - e) * pow10 (e - P))) at 1; [ring|rewrite I; ring]. }
  destruct (Z.eqb_spec m (10 ^ (P + 1))) as [Em|Em].
  - unfold value_p. cbn [fst snd]. split; [lia|].
    setoid_replace (inject_Z (10 ^ P) * pow10 (e + 1 - P)) with (inject_Z m * pow10 (e - P)); [exact ER|].
    rewrite Em, PP1. replace (e + 1 - P)%Z with (1 + (e - P))%Z by lia. rewrite pow10_plus.
    change (pow10 1) with (inject_Z 10). rewrite inject_Z_mult. ring.
  - unfold value_p. cbn [fst snd]. split; [lia|]. exact ER.
Qed.

Lemma sci_p_again me : (10 ^ P <= fst me < 10 ^ (P + 1))%Z -> sci_p p (value_p me) = me.
Proof.
  destruct me as [m e]. unfold value_p. cbn [fst snd]. intros [H1 H2].
  pose proof pow_p as PP. pose proof pow_p1 as PP1. pose proof P_pos as P0.
  assert (K : 0 < pow10 (e - P)) by apply pow10_pos.
  assert (Q1 : inject_Z (10 ^ P) <= inject_Z m) by (rewrite <- Zle_Qle; exact H1).
  assert (Q2 : inject_Z m < inject_Z (10 ^ (P + 1))) by (rewrite <- Zlt_Qlt; exact H2).
  assert (L0 : 0 < inject_Z (10 ^ P)) by (change 0 with (inject_Z 0); rewrite <- Zlt_Qlt; exact PP).
  assert (E : exponent (inject_Z m * pow10 (e - P)) = e).
  { apply exponent_unique.
    - replace e with (P + (e - P))%Z at 1 by lia. rewrite pow10_plus. rewrite (pow10_nat P) by lia. nra.
    - replace (e + 1)%Z with (P + 1 + (e - P))%Z by lia. rewrite (pow10_plus (P + 1)). rewrite (pow10_nat (P + 1)) by lia. nra. }
  unfold sci_p. fold P. qcase_eq (inject_Z m * pow10 (e - P)) 0 H0; [nra|]. cbv zeta. rewrite E.
  rewrite (round_even_int _ m).
  - destruct (Z.eqb_spec m (10 ^ (P + 1))); [lia|reflexivity].
  - rewrite <- Qmult_assoc, <- pow10_plus. replace (e - P + (P - e))%Z with 0%Z by lia. rewrite pow10_0. ring.
Qed.

Lemma sci_p_zero x : x == 0 -> sci_p p x = (0%Z, 0%Z).
Proof. intros H. unfold sci_p. qcase_eq x 0 K; [reflexivity|contradiction]. Qed.
Lemma sci_p_range x : 0 <= x -> (0 <= fst (sci_p p x) < 10 ^ (P + 1))%Z.
Proof.
  intros H. pose proof pow_p. pose proof pow_p1. qcase_lt 0 x L; [destruct (sci_p_spec x L); lia|]. rewrite sci_p_zero by lra. cbn [fst]. lia.
Qed.
Lemma sci_p_comp x y : 0 <= x -> x == y -> sci_p p x = sci_p p y.
Proof.
  intros H E. unfold sci_p. rewrite (qeqb_comp x y 0 0 E) by lra.
  qcase_eq y 0 K; [reflexivity|]. assert (Hx : 0 < x) by (assert (~ x == 0) by lra; lra).
  cbv zeta. rewrite (exponent_comp x y Hx E). rewrite (round_even_comp _ (y * pow10 (Z.of_nat p - exponent y))); [reflexivity|].
  rewrite E. reflexivity.
Qed.

Lemma digit_p m : (0 <= m < 10 ^ (P + 1))%Z -> (0 <= m / 10 ^ P < 10)%Z.
Proof. pose proof pow_p. pose proof pow_p1. intro H1. split; [apply Z.div_pos; lia|apply Z.div_lt_upper_bound; lia]. Qed.

(** float() of a sign and the digits *)
Lemma parse_p (neg : bool) me : (0 <= fst me < 10 ^ (P + 1))%Z ->
  parse_float ((if neg then c_minus else c_plus) :: fmt_sci_p p me) = Some (if neg then - value_p me else value_p me).
Proof.
  destruct me as [m e]. unfold fmt_sci_p, value_p. cbn [fst snd]. fold P. intros H.
  pose proof pow_p as PP. pose proof (digit_p m H) as D.
  assert (DD : all_digits [digit_char (m / 10 ^ P)]).
  { constructor; [|constructor]. eexists. split; [apply digit_val_char; exact D|exact D]. }
  set (d0 := digit_char (m / 10 ^ P)) in *.
  assert (T : take_sign ((if neg then c_minus else c_plus) :: d0 :: c_dot :: digits p m ++ fmt_exp e)
              = (neg, d0 :: c_dot :: digits p m ++ fmt_exp e)) by (destruct neg; reflexivity).
  unfold parse_float. rewrite T.
  assert (S1 : span_digits (d0 :: c_dot :: digits p m ++ fmt_exp e) = ([d0], c_dot :: digits p m ++ fmt_exp e)).
  { apply (all_digits_span [d0] (c_dot :: digits p m ++ fmt_exp e) DD). reflexivity. }
  rewrite S1. rewrite Ascii.eqb_refl.
  assert (S2 : span_digits (digits p m ++ fmt_exp e) = (digits p m, fmt_exp e)).
  { apply all_digits_span; [apply all_digits_digits|reflexivity]. }
  rewrite S2.
  assert (V : parse_nat ([d0] ++ digits p m) = Some m).
  { unfold parse_nat. cbn [app digits_val]. unfold d0. rewrite digit_val_char by exact D.
    rewrite digits_val_digits. f_equal. fold P.
    pose proof (Z.div_mod m (10 ^ P) ltac:(lia)). lia. }
  rewrite V. rewrite digits_length. fold P. unfold fmt_exp.
  change (Ascii.eqb c_e c_e || Ascii.eqb c_e c_E)%bool with true. cbn iota. rewrite parse_int_exp.
  destruct neg; reflexivity.
Qed.

(** the number a reader gets *)
Definition reread_p (x : Q) : Q := if qltb x 0 then - value_p (sci_p p (- x)) else value_p (sci_p p x).
Lemma parse_fmt_plus x : parse_float (fmt_plus p x) = Some (reread_p x).
Proof.
  unfold fmt_plus, reread_p. qcase_lt x 0 L.
  - apply (parse_p true). apply sci_p_range. lra.
  - apply (parse_p false). apply sci_p_range. lra.
Qed.
Lemma value_p_pos x : 0 < x -> 0 < value_p (sci_p p x).
Proof.
  intros H. destruct (sci_p_spec x H) as ([M _] & _). unfold value_p.
  pose proof (pow10_pos (snd (sci_p p x) - P)) as K1.
  assert (K : inject_Z (10 ^ P) <= inject_Z (fst (sci_p p x))) by (rewrite <- Zle_Qle; exact M).
  assert (0 < inject_Z (10 ^ P)) by (change 0 with (inject_Z 0); rewrite <- Zlt_Qlt; exact pow_p). nra.
Qed.
Lemma value_p_zero x : x == 0 -> value_p (sci_p p x) == 0.
Proof. intros H. rewrite (sci_p_zero x H). unfold value_p. cbn [fst snd]. change (inject_Z 0) with 0. ring. Qed.
Lemma reread_p_sign x : (0 < x -> 0 < reread_p x) /\ (x == 0 -> reread_p x == 0) /\ (x < 0 -> reread_p x < 0).
Proof.
  unfold reread_p. repeat split; intros H; qcase_lt x 0 L; try lra.
  - apply value_p_pos, H.
  - apply value_p_zero, H.
  - pose proof (value_p_pos (- x) ltac:(lra)). lra.
Qed.
Lemma reread_p_accurate x : accurate p x (reread_p x).
Proof.
  unfold accurate. fold P. destruct (reread_p_sign x) as (_ & R2 & _).
  qcase_eq x 0 H0; [left; split; [exact H0|exact (R2 H0)]|]. right.
  unfold reread_p. qcase_lt x 0 L.
  - exists (exponent (- x)). rewrite !ten_to_pow10. rewrite Qabs_neg by lra.
    destruct (exponent_spec (- x) ltac:(lra)) as (E1 & E2). destruct (sci_p_spec (- x) ltac:(lra)) as (_ & S).
    repeat split; [exact E1|exact E2|].
    setoid_replace (- value_p (sci_p p (- x)) - x) with (- (value_p (sci_p p (- x)) - - x)) by ring.
    rewrite Qabs_opp. exact S.
  - exists (exponent x). rewrite !ten_to_pow10. rewrite Qabs_pos by lra.
    destruct (exponent_spec x ltac:(lra)) as (E1 & E2). destruct (sci_p_spec x ltac:(lra)) as (_ & S).
    repeat split; assumption.
Qed.
(** printing what was read gives the same text *)
Lemma fmt_plus_reread x : fmt_plus p (reread_p x) = fmt_plus p x.
Proof.
  destruct (reread_p_sign x) as (R1 & R2 & R3).
  unfold fmt_plus. qcase_lt x 0 L.
  - specialize (R3 L). qcase_lt (reread_p x) 0 L'; [|lra]. do 2 f_equal.
    unfold reread_p. qcase_lt x 0 LL; [|lra].
    rewrite (sci_p_comp _ (value_p (sci_p p (- x)))); [apply sci_p_again, sci_p_spec; lra| |ring].
    pose proof (value_p_pos (- x) ltac:(lra)). lra.
  - qcase_lt (reread_p x) 0 L'.
    { destruct (Qlt_le_dec 0 x) as [H|H]; [specialize (R1 H); lra|]. assert (H0 : x == 0) by lra. specialize (R2 H0). lra. }
    do 2 f_equal. destruct (Qlt_le_dec 0 x) as [H|H].
    + unfold reread_p. qcase_lt x 0 LL; [lra|]. apply sci_p_again, sci_p_spec, H.
    + assert (H0 : x == 0) by lra. specialize (R2 H0). rewrite (sci_p_zero _ R2), (sci_p_zero _ H0). reflexivity.
Qed.
End Precision.

(** ** characters of a printed number *)
Definition number_char (c : ascii) : Prop := is_digit c = true \/ c = c_plus \/ c = c_minus \/ c = c_dot \/ c = c_e.
Lemma digits_chars s : all_digits s -> Forall number_char s.
Proof. apply Forall_impl. intros c (d & Hd & _). left. unfold is_digit. rewrite Hd. reflexivity. Qed.
Lemma fmt_plus_chars p x : Forall number_char (fmt_plus p x).
Proof.
  assert (K : forall me, (0 <= fst me < 10 ^ (Z.of_nat p + 1))%Z -> Forall number_char (fmt_sci_p p me)).
  { intros me H. unfold fmt_sci_p. pose proof (digit_p p _ H) as D.
    constructor; [left; unfold is_digit; rewrite (digit_val_char _ D); reflexivity|].
    constructor; [right; right; right; left; reflexivity|]. apply Forall_app. split; [apply digits_chars, all_digits_digits|].
    unfold fmt_exp. constructor; [right; right; right; right; reflexivity|].
    constructor; [destruct (snd me <? 0)%Z; [right; right; left|right; left]; reflexivity|].
    apply digits_chars, all_digits_pad. }
  unfold fmt_plus. qcase_lt x 0 L; (constructor; [|apply K, sci_p_range; lra]);
    [right; right; left|right; left]; reflexivity.
Qed.
Lemma fmt_02i_chars m : Forall number_char (fmt_02i m).
Proof.
  unfold fmt_02i. destruct (m <? 0)%Z; [constructor; [right; right; left; reflexivity|]|]; apply digits_chars;
    [apply all_digits_digits|apply all_digits_pad].
Qed.
Lemma number_char_facts c : number_char c -> is_space c = false /\ Ascii.eqb c c_hash = false /\ c <> "b"%char.
Proof.
  intros [H|[H|[H|[H|H]]]]; try (rewrite H; split; [reflexivity|split; [reflexivity|discriminate]]).
  unfold is_digit in H. destruct (digit_val c) as [d|] eqn:E; [|discriminate]. split; [apply (digit_no_space c d E)|].
  split; [destruct (Ascii.eqb_spec c c_hash) as [K|K]; [rewrite K in E; discriminate E|reflexivity]|].
  intro K. rewrite K in E. discriminate E.
Qed.
Lemma chars_no_space s : Forall number_char s -> no_space s.
Proof. apply Forall_impl. intros c H. apply (number_char_facts c H). Qed.

(** ** numbers read from rows *)
Definition level_value (m : Z) : Q := if (m <? 0)%Z then - (inject_Z (- m) * pow10 0) else inject_Z m * pow10 0.
Lemma parse_level m : parse_float (fmt_02i m) = Some (level_value m).
Proof.
  unfold level_value, fmt_02i. destruct (Z.ltb_spec m 0) as [L|L].
  - unfold parse_float. cbn [take_sign]. rewrite Ascii.eqb_refl.
    rewrite <- (app_nil_r (str_nat (- m))). rewrite (all_digits_span (str_nat (- m)) []) by (try apply all_digits_digits; exact I).
    rewrite app_nil_r.
    rewrite (parse_nat_some _ (- m)); [reflexivity|apply str_nat_nonempty; lia|apply str_nat_val; lia].
  - unfold parse_float. rewrite take_sign_digits by apply all_digits_pad.
    rewrite <- (app_nil_r (pad c_zero 2 (str_nat m))). rewrite (all_digits_span _ []) by (try apply all_digits_pad; exact I).
    rewrite app_nil_r. rewrite (parse_nat_some _ m); [reflexivity| |apply pad_zero_val; lia].
    unfold pad. intro E. apply app_eq_nil in E. revert E. intros [_ E]. revert E. apply str_nat_nonempty. lia.
Qed.
Lemma trunc_level m : trunc (level_value m) = m.
Proof.
  unfold level_value, trunc. destruct (Z.ltb_spec m 0).
  - change (Qnum (- (inject_Z (- m) * pow10 0))) with (- (- m * 1))%Z. change (Qden (- (inject_Z (- m) * pow10 0))) with 1%positive.
    rewrite Z.quot_1_r. lia.
  - change (Qnum (inject_Z m * pow10 0)) with (m * 1)%Z. change (Qden (inject_Z m * pow10 0)) with 1%positive.
    rewrite Z.quot_1_r. lia.
Qed.

Lemma floats_map {A} (f : A -> text) (g : A -> Q) l : (forall a, parse_float (f a) = Some (g a)) -> floats (map f l) = Some (map g l).
Proof. intro H. induction l as [|a l IH]; [reflexivity|]. cbn [map floats]. rewrite H, IH. reflexivity. Qed.

(** the words of a row *)
Lemma words_join l : Forall (fun s => no_space s /\ s <> []) l -> words (join l ++ [c_nl]) = l.
Proof.
  induction l as [|a l IH]; intro H; [reflexivity|]. apply Forall_cons_iff in H. destruct H as ((Ha & Na) & Hl).
  destruct l as [|b l]; cbn [join].
  - rewrite words_word; [reflexivity|exact Ha|exact Na|reflexivity].
  - rewrite <- app_assoc. rewrite words_word; [|exact Ha|exact Na|reflexivity]. f_equal.
    cbn [app]. exact (IH Hl).
Qed.
Lemma fmt_plus_word p x : no_space (fmt_plus p x) /\ fmt_plus p x <> [].
Proof. split; [apply chars_no_space, fmt_plus_chars|]. unfold fmt_plus. destruct (qltb x 0); discriminate. Qed.
Lemma fmt_02i_word m : no_space (fmt_02i m) /\ fmt_02i m <> [].
Proof.
  split; [apply chars_no_space, fmt_02i_chars|]. intro E. pose proof (parse_level m) as K. rewrite E in K. discriminate K.
Qed.
Definition row_words (p : nat) (lev : Z) (t : Q) (v : list Q) : list text := fmt_02i lev :: fmt_plus 15 t :: map (fmt_plus p) v.
Lemma row_line_words p lev t v : words (row_line p lev t v) = row_words p lev t v.
Proof.
  unfold row_line, row_words. destruct (fmt_02i_word lev) as (A & B). destruct (fmt_plus_word 15 t) as (C & D).
  rewrite words_word; [|exact A|exact B|reflexivity]. f_equal.
  change (words (c_space :: fmt_plus 15 t ++ c_space :: join (map (fmt_plus p) v) ++ [c_nl]))
    with (words (fmt_plus 15 t ++ c_space :: join (map (fmt_plus p) v) ++ [c_nl])).
  rewrite words_word; [|exact C|exact D|reflexivity]. f_equal.
  change (words (c_space :: join (map (fmt_plus p) v) ++ [c_nl])) with (words (join (map (fmt_plus p) v) ++ [c_nl])).
  apply words_join. apply Forall_forall. intros s Hs. apply in_map_iff in Hs. destruct Hs as (x & E & _). rewrite <- E. apply fmt_plus_word.
Qed.
Definition row_char (c : ascii) : Prop := number_char c \/ c = c_space.
Lemma row_body_chars p lev t v : Forall row_char (fmt_02i lev ++ c_space :: fmt_plus 15 t ++ c_space :: join (map (fmt_plus p) v)).
Proof.
  assert (K : forall s, Forall number_char s -> Forall row_char s) by (intro s; apply Forall_impl; intros c H; left; exact H).
  apply Forall_app. split; [apply K, fmt_02i_chars|]. constructor; [right; reflexivity|].
  apply Forall_app. split; [apply K, fmt_plus_chars|]. constructor; [right; reflexivity|].
  induction v as [|x v IH]; [constructor|]. cbn [map join]. destruct v as [|y v]; [cbn [map]; apply K, fmt_plus_chars|].
  cbn [map]. apply Forall_app. split; [apply K, fmt_plus_chars|]. constructor; [right; reflexivity|exact IH].
Qed.
Lemma row_line_split p lev t v : exists b, row_line p lev t v = b ++ [c_nl] /\ Forall row_char b.
Proof.
  exists (fmt_02i lev ++ c_space :: fmt_plus 15 t ++ c_space :: join (map (fmt_plus p) v)). split; [|apply row_body_chars].
  unfold row_line. rewrite <- app_assoc. cbn [app]. rewrite <- app_assoc. reflexivity.
Qed.
Lemma row_char_facts c : row_char c -> c <> c_nl /\ Ascii.eqb c c_hash = false /\ c <> "b"%char.
Proof.
  intros [H|H].
  - destruct (number_char_facts c H) as (A & B & C). split; [|split; assumption]. intro E. rewrite E in A. discriminate A.
  - rewrite H. split; [discriminate|split; [reflexivity|discriminate]].
Qed.
Lemma row_line_no_comment p lev t v : uncomment (row_line p lev t v) = row_line p lev t v.
Proof.
  destruct (row_line_split p lev t v) as (b & E & H). rewrite E. clear E. induction b as [|c b IH]; [reflexivity|].
  apply Forall_cons_iff in H. destruct H as (Hc & Hb). cbn [app uncomment].
  destruct (row_char_facts c Hc) as (_ & K & _). rewrite K, (IH Hb). reflexivity.
Qed.
Lemma starts_first c w s : Forall (fun d => d <> c) s -> starts (c :: w) s = false.
Proof.
  destruct s as [|d s]; [reflexivity|]. intro H. apply Forall_inv in H. cbn [starts].
  destruct (Ascii.eqb_spec c d) as [E|E]; [congruence|reflexivity].
Qed.
Lemma contains_not c w s : Forall (fun d => d <> c) s -> contains (c :: w) s = false.
Proof.
  induction s as [|d s IH]; intro H; [reflexivity|]. cbn [contains]. rewrite (starts_first c w (d :: s) H).
  apply Forall_cons_iff in H. exact (IH (proj2 H)).
Qed.
Lemma row_line_not_binary p lev t v w : contains ("b"%char :: w) (row_line p lev t v) = false.
Proof.
  apply contains_not. destruct (row_line_split p lev t v) as (b & E & H). rewrite E. apply Forall_app. split.
  - eapply Forall_impl; [|exact H]. intros c K. apply (row_char_facts c K).
  - constructor; [discriminate|constructor].
Qed.
Lemma lines_row p lev t v r : lines (row_line p lev t v ++ r) = row_line p lev t v :: lines r.
Proof.
  destruct (row_line_split p lev t v) as (b & E & H). rewrite E, <- app_assoc. cbn [app]. apply lines_line.
  intro K. rewrite Forall_forall in H. specialize (H _ K). destruct (row_char_facts _ H) as (N & _). congruence.
Qed.
