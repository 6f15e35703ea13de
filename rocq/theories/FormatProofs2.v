(** Parsing what was printed: proofs. *)
From Coq Require Import Ascii String.
From Verif Require Import Base FormatModel FormatSpec FormatProofs.
Open Scope Q_scope.

Lemma parse_int_exp e : parse_int ((if (e <? 0)%Z then c_minus else c_plus) :: pad c_zero 2 (str_nat (Z.abs e))) = Some e.
Proof.
  assert (N : pad c_zero 2 (str_nat (Z.abs e)) <> []).
  { unfold pad. intros E. apply app_eq_nil in E. destruct E as [_ E]. revert E. apply str_nat_nonempty. lia. }
  unfold parse_int. destruct (Z.ltb_spec e 0) as [L|L]; cbn [take_sign].
  - rewrite Ascii.eqb_refl. rewrite (parse_nat_some _ (Z.abs e) N) by (apply pad_zero_val; lia). f_equal. lia.
  - change (Ascii.eqb c_plus c_minus) with false. rewrite Ascii.eqb_refl. cbn iota.
    rewrite (parse_nat_some _ (Z.abs e) N) by (apply pad_zero_val; lia). f_equal. lia.
Qed.

(** the part of float() after the sign *)
Lemma parse_float_sci (neg : bool) me : (0 <= fst me < 10 ^ 9)%Z ->
  parse_float ((if neg then [c_minus] else []) ++ fmt_sci me) = Some (if neg then - sci_value me else sci_value me).
Proof.
  destruct me as [m e]. unfold fmt_sci, sci_value. cbn [fst snd]. intros H.
  assert (D : (0 <= m / 10 ^ 8 < 10)%Z).
  { split; [apply Z.div_pos; lia|apply Z.div_lt_upper_bound; lia]. }
  assert (DD : all_digits [digit_char (m / 10 ^ 8)]).
  { constructor; [|constructor]. eexists. split; [apply digit_val_char; exact D|exact D]. }
  set (d0 := digit_char (m / 10 ^ 8)) in *.
  assert (T : take_sign ((if neg then [c_minus] else []) ++ d0 :: c_dot :: digits 8 m ++ fmt_exp e)
              = (neg, d0 :: c_dot :: digits 8 m ++ fmt_exp e)).
  { destruct neg; cbn [app take_sign]; [rewrite Ascii.eqb_refl; reflexivity|].
    pose proof (take_sign_digits _ DD) as K. cbn [take_sign] in K.
    destruct (Ascii.eqb d0 c_minus); [discriminate|]. destruct (Ascii.eqb d0 c_plus); [discriminate|reflexivity]. }
  unfold parse_float. rewrite T.
  assert (S1 : span_digits (d0 :: c_dot :: digits 8 m ++ fmt_exp e) = ([d0], c_dot :: digits 8 m ++ fmt_exp e)).
  { apply (all_digits_span [d0] (c_dot :: digits 8 m ++ fmt_exp e) DD). reflexivity. }
  rewrite S1. rewrite Ascii.eqb_refl.
  assert (S2 : span_digits (digits 8 m ++ fmt_exp e) = (digits 8 m, fmt_exp e)).
  { apply all_digits_span; [apply all_digits_digits|reflexivity]. }
  rewrite S2.
  assert (V : parse_nat ([d0] ++ digits 8 m) = Some m).
  { unfold parse_nat. cbn [app digits_val]. unfold d0. rewrite digit_val_char by exact D.
    rewrite digits_val_digits. f_equal. change (Z.of_nat 8) with 8%Z.
    pose proof (Z.div_mod m (10 ^ 8) ltac:(lia)). lia. }
  rewrite V. rewrite digits_length. change (Z.of_nat 8) with 8%Z. unfold fmt_exp.
  change (Ascii.eqb c_e c_e || Ascii.eqb c_e c_E)%bool with true. cbn iota. rewrite parse_int_exp.
  destruct neg; reflexivity.
Qed.

(** the number a reader gets from the printed form of [x] *)
Definition reread (x : Q) : Q :=
  if qltb x 0 then - sci_value (sci (- x)) else sci_value (sci x).

Lemma sci_zero x : x == 0 -> sci x = (0%Z, 0%Z).
Proof. intros H. unfold sci. qcase_eq x 0 K; [reflexivity|contradiction]. Qed.

Lemma sci_range x : 0 <= x -> (0 <= fst (sci x) < 10 ^ 9)%Z.
Proof.
  intros H. qcase_lt 0 x L; [destruct (sci_spec x L); lia|]. rewrite sci_zero by lra. cbn; lia.
Qed.

Lemma parse_fmt_e x : parse_float (fmt_e x) = Some (reread x).
Proof.
  unfold fmt_e, reread. qcase_lt x 0 L.
  - apply (parse_float_sci true). apply sci_range. lra.
  - apply (parse_float_sci false). apply sci_range. lra.
Qed.

Lemma sci_value_pos x : 0 < x -> 0 < sci_value (sci x).
Proof.
  intros H. destruct (sci_spec x H) as ([M _] & _). unfold sci_value.
  pose proof (pow10_pos (snd (sci x) - 8)).
  assert (K : inject_Z (10 ^ 8) <= inject_Z (fst (sci x))) by (rewrite <- Zle_Qle; exact M).
  assert (0 < inject_Z (10 ^ 8)) by reflexivity. nra.
Qed.
Lemma sci_value_zero x : x == 0 -> sci_value (sci x) == 0.
Proof. intros H. rewrite (sci_zero x H). reflexivity. Qed.

Lemma sci_idem x : 0 < x -> sci (sci_value (sci x)) = sci x.
Proof. intros H. apply sci_value_sci. apply sci_spec, H. Qed.

Lemma reread_sign x : (0 < x -> 0 < reread x) /\ (x == 0 -> reread x == 0) /\ (x < 0 -> reread x < 0).
Proof.
  unfold reread. repeat split; intros H; qcase_lt x 0 L; try lra.
  - apply sci_value_pos, H.
  - apply sci_value_zero, H.
  - pose proof (sci_value_pos (- x) ltac:(lra)). lra.
Qed.

(** printing what was read back gives the same text *)
Lemma fmt_e_reread x : fmt_e (reread x) = fmt_e x.
Proof.
  destruct (reread_sign x) as (R1 & R2 & R3).
  unfold fmt_e. qcase_lt x 0 L.
  - specialize (R3 L). qcase_lt (reread x) 0 L'; [|lra]. do 2 f_equal.
    unfold reread. qcase_lt x 0 LL; [|lra].
    rewrite (sci_comp _ (sci_value (sci (- x)))); [apply sci_idem; lra| |ring].
    pose proof (sci_value_pos (- x) ltac:(lra)). lra.
  - qcase_lt (reread x) 0 L'.
    { destruct (Qlt_le_dec 0 x) as [P|P]; [specialize (R1 P); lra|]. assert (x == 0) by lra. specialize (R2 H). lra. }
    f_equal. destruct (Qlt_le_dec 0 x) as [P|P].
    + unfold reread. qcase_lt x 0 LL; [lra|]. apply sci_idem, P.
    + assert (Z : x == 0) by lra. specialize (R2 Z). rewrite (sci_zero _ R2), (sci_zero _ Z). reflexivity.
Qed.

Lemma reread_comp x y : x == y -> reread x = reread y.
Proof.
  intros H. unfold reread. rewrite (qltb_comp x y 0 0 H) by lra.
  qcase_lt y 0 L; [|apply f_equal, sci_comp; lra]. do 2 f_equal. apply sci_comp; lra.
Qed.

Lemma reread_reread x : reread (reread x) = reread x.
Proof.
  assert (K : Some (reread (reread x)) = Some (reread x)).
  { rewrite <- (parse_fmt_e (reread x)), fmt_e_reread. apply parse_fmt_e. }
  congruence.
Qed.

Lemma reread_accurate x : nine_digits x (reread x).
Proof.
  unfold nine_digits. destruct (reread_sign x) as (_ & R2 & _).
  qcase_eq x 0 H0; [left; split; [exact H0|exact (R2 H0)]|]. right.
  unfold reread. qcase_lt x 0 L.
  - exists (exponent (- x)). rewrite !ten_to_pow10. rewrite Qabs_neg by lra.
    destruct (exponent_spec (- x) ltac:(lra)) as (E1 & E2). destruct (sci_spec (- x) ltac:(lra)) as (_ & _ & S).
    repeat split; [exact E1|exact E2|].
    setoid_replace (- sci_value (sci (- x)) - x) with (- (sci_value (sci (- x)) - - x)) by ring.
    rewrite Qabs_opp. exact S.
  - exists (exponent x). rewrite !ten_to_pow10. rewrite Qabs_pos by lra.
    destruct (exponent_spec x ltac:(lra)) as (E1 & E2). destruct (sci_spec x ltac:(lra)) as (_ & _ & S).
    repeat split; assumption.
Qed.

(** ** no blanks inside printed numbers *)
Definition no_space (s : text) : Prop := Forall (fun c => is_space c = false) s.

Lemma digit_no_space c d : digit_val c = Some d -> is_space c = false.
Proof.
  unfold digit_val, is_space. set (n := Z.of_N (N_of_ascii c)).
  destruct (Z.leb_spec 48 n); [|discriminate]. intros _.
  repeat match goal with |- context [(?a =? ?b)%Z] => destruct (Z.eqb_spec a b); [lia|]
                       | |- context [(?a <=? ?b)%Z] => destruct (Z.leb_spec a b); try lia end; reflexivity.
Qed.
Lemma all_digits_no_space s : all_digits s -> no_space s.
Proof. apply Forall_impl. intros c (d & Hd & _). eapply digit_no_space; eassumption. Qed.

Lemma no_space_str_int m : no_space (str_int m).
Proof.
  unfold str_int. destruct (m <? 0)%Z; [constructor; [reflexivity|]|]; apply all_digits_no_space, all_digits_digits.
Qed.

Lemma no_space_fmt_sci me : (0 <= fst me < 10 ^ 9)%Z -> no_space (fmt_sci me).
Proof.
  intros H. unfold fmt_sci.
  assert (D : (0 <= fst me / 10 ^ 8 < 10)%Z).
  { split; [apply Z.div_pos; lia|apply Z.div_lt_upper_bound; lia]. }
  constructor; [eapply digit_no_space; apply digit_val_char; exact D|].
  constructor; [reflexivity|]. apply Forall_app. split; [apply all_digits_no_space, all_digits_digits|].
  unfold fmt_exp. constructor; [reflexivity|]. constructor; [destruct (snd me <? 0)%Z; reflexivity|].
  apply all_digits_no_space, all_digits_pad.
Qed.
Lemma no_space_fmt_e x : no_space (fmt_e x).
Proof.
  unfold fmt_e. qcase_lt x 0 L; [constructor; [reflexivity|]|]; apply no_space_fmt_sci, sci_range; lra.
Qed.
Lemma fmt_e_nonempty x : fmt_e x <> [].
Proof. unfold fmt_e. destruct (qltb x 0); discriminate. Qed.
Lemma str_int_nonempty m : str_int m <> [].
Proof. unfold str_int. destruct (Z.ltb_spec m 0); [discriminate|]. apply str_nat_nonempty. lia. Qed.

(** ** the width *)
Lemma fmt_sci_length me : (Z.abs (snd me) < 1000)%Z -> (length (fmt_sci me) <= 15)%nat.
Proof.
  intros H. unfold fmt_sci, fmt_exp. cbn [length]. rewrite app_length, digits_length. cbn [length].
  unfold pad. rewrite app_length, repeat_length, str_nat_length.
  pose proof (num_digits_le (Z.abs (snd me)) 3 ltac:(split; [lia|exact H]) ltac:(lia)). lia.
Qed.

Lemma exponent_double x : ten_to (-324) <= x -> x < ten_to 309 -> (-324 <= exponent x <= 308)%Z.
Proof.
  intros H1 H2. assert (E : (0 < x)) by (eapply Qlt_le_trans; [|exact H1]; reflexivity).
  destruct (exponent_spec x E) as (E1 & E2).
  assert (A : (-324 < exponent x + 1)%Z).
  { apply pow10_lt_inv. rewrite <- (ten_to_pow10 (-324)). eapply Qle_lt_trans; [exact H1|exact E2]. }
  assert (B : (exponent x < 309)%Z).
  { apply pow10_lt_inv. rewrite <- (ten_to_pow10 309). eapply Qle_lt_trans; [exact E1|exact H2]. }
  lia.
Qed.

Lemma fmt_e_length x : double_range x -> (length (fmt_e x) <= 16)%nat.
Proof.
  intros H.
  assert (K : forall y, 0 <= y -> (y == 0 \/ (ten_to (-324) <= y /\ y < ten_to 309)) -> (length (fmt_sci (sci y)) <= 15)%nat).
  { intros y Hy [Z|[A B]].
    - rewrite sci_zero by exact Z. apply fmt_sci_length. cbn; lia.
    - apply fmt_sci_length. pose proof (exponent_double y A B).
      assert (0 < y) by (eapply Qlt_le_trans; [|exact A]; reflexivity).
      destruct (sci_spec y H1) as (_ & S & _). lia. }
  unfold fmt_e. destruct H as [H|[A B]].
  - qcase_lt x 0 L; [lra|]. pose proof (K x ltac:(lra) (or_introl H)). lia.
  - qcase_lt x 0 L.
    + rewrite Qabs_neg in A, B by lra. pose proof (K (- x) ltac:(lra) (or_intror (conj A B))). cbn [length]. lia.
    + rewrite Qabs_pos in A, B by lra. pose proof (K x ltac:(lra) (or_intror (conj A B))). lia.
Qed.

(** ** words *)
Lemma words_from_word cur s r : no_space s ->
  words_from cur (s ++ r) = words_from (cur ++ s) r.
Proof.
  revert cur; induction s as [|c s IH]; intros cur H; cbn [app]; [rewrite app_nil_r; reflexivity|].
  inversion H as [|? ? Hc Hs]; subst. cbn [words_from]. rewrite Hc. rewrite IH by exact Hs.
  rewrite <- app_assoc. reflexivity.
Qed.
Lemma words_blanks k s : words (repeat c_space k ++ s) = words s.
Proof. induction k as [|k IH]; [reflexivity|]. exact IH. Qed.
Lemma words_word w s : no_space w -> w <> [] ->
  (match s with c :: _ => is_space c = true | [] => True end) -> words (w ++ s) = w :: words s.
Proof.
  intros H N Hs. unfold words at 1. rewrite words_from_word by exact H. cbn [app].
  destruct w as [|c w]; [congruence|]. destruct s as [|b s]; [reflexivity|].
  cbn [words_from]. rewrite Hs. unfold words. cbn [words_from]. rewrite Hs. reflexivity.
Qed.
Lemma words_pad w s r : no_space s -> s <> [] -> (match r with c :: _ => is_space c = true | [] => True end) ->
  words (pad c_space w s ++ r) = s :: words r.
Proof. intros H N Hr. unfold pad. rewrite <- app_assoc, words_blanks. apply words_word; assumption. Qed.

Lemma pad_starts_blank w s : (length s < w)%nat -> forall r, match pad c_space w s ++ r with c :: _ => is_space c = true | [] => True end.
Proof.
  intros H r. unfold pad. replace (w - length s)%nat with (S (w - length s - 1)) by lia. cbn [repeat app]. reflexivity.
Qed.

(** a row of numbers is split into these numbers *)
Lemma words_row xs : Forall double_range xs ->
  words (concat (map fmt_18_8e xs) ++ [c_nl]) = map fmt_e xs.
Proof.
  induction xs as [|x xs IH]; intros H; [reflexivity|].
  inversion H as [|? ? Hx Hxs]; subst. cbn [map concat]. rewrite <- app_assoc.
  unfold fmt_18_8e at 1. rewrite words_pad; [rewrite IH by exact Hxs; reflexivity|apply no_space_fmt_e|apply fmt_e_nonempty|].
  destruct xs as [|y ys]; [reflexivity|]. cbn [map concat]. rewrite <- app_assoc.
  apply pad_starts_blank. inversion Hxs as [|? ? Hy _]; subst. pose proof (fmt_e_length y Hy). lia.
Qed.

(** ** lines *)
Definition no_nl (s : text) : Prop := ~ In c_nl s.

Lemma lines_from_line cur s r : no_nl s -> lines_from cur (s ++ c_nl :: r) = (cur ++ s ++ [c_nl]) :: lines r.
Proof.
  revert cur; induction s as [|c s IH]; intros cur H; cbn [app lines_from].
  - rewrite Ascii.eqb_refl. reflexivity.
  - destruct (Ascii.eqb_spec c c_nl) as [E|E]; [exfalso; apply H; left; exact E|].
    rewrite IH by (intros K; apply H; right; exact K). rewrite <- app_assoc. reflexivity.
Qed.
Lemma lines_line s r : no_nl s -> lines (s ++ c_nl :: r) = (s ++ [c_nl]) :: lines r.
Proof. intros H. exact (lines_from_line [] s r H). Qed.

Lemma no_space_no_nl s : no_space s -> no_nl s.
Proof.
  intros H K. unfold no_space in H. rewrite Forall_forall in H. specialize (H _ K). discriminate.
Qed.
Lemma no_nl_app a b : no_nl a -> no_nl b -> no_nl (a ++ b).
Proof. intros Ha Hb K. apply in_app_or in K. destruct K; [apply Ha|apply Hb]; assumption. Qed.
Lemma no_nl_pad w s : no_nl s -> no_nl (pad c_space w s).
Proof. intros H. apply no_nl_app; [|exact H]. intros K. apply repeat_spec in K. discriminate. Qed.
Lemma no_nl_fmt x : no_nl (fmt_18_8e x).
Proof. apply no_nl_pad, no_space_no_nl, no_space_fmt_e. Qed.
Lemma no_nl_fmt_5i m : no_nl (fmt_5i m).
Proof. apply no_nl_pad, no_space_no_nl, no_space_str_int. Qed.
Lemma no_nl_row xs : no_nl (concat (map fmt_18_8e xs)).
Proof.
  induction xs as [|x xs IH]; [intros []|]. cbn [map concat]. apply no_nl_app; [apply no_nl_fmt|exact IH].
Qed.
