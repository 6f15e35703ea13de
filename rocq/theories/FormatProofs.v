(** Digits, decimal exponents and rounding: proofs. *)
From Coq Require Import Ascii String Qpower.
From Verif Require Import Base FormatModel FormatSpec.
Open Scope Q_scope.

(** ** digit characters *)
Lemma digit_cases (P : Z -> Prop) d : (0 <= d < 10)%Z ->
  P 0%Z -> P 1%Z -> P 2%Z -> P 3%Z -> P 4%Z -> P 5%Z -> P 6%Z -> P 7%Z -> P 8%Z -> P 9%Z -> P d.
Proof.
  intros H P0 P1 P2 P3 P4 P5 P6 P7 P8 P9.
  assert (d = 0 \/ d = 1 \/ d = 2 \/ d = 3 \/ d = 4 \/ d = 5 \/ d = 6 \/ d = 7 \/ d = 8 \/ d = 9)%Z by lia.
  repeat (destruct H0 as [H0|H0]; [subst d; assumption|]). subst d; assumption.
Qed.

Lemma digit_val_char d : (0 <= d < 10)%Z -> digit_val (digit_char d) = Some d.
Proof. intros H. apply (digit_cases (fun d => digit_val (digit_char d) = Some d) d H); reflexivity. Qed.

Lemma mod10 m : (0 <= m mod 10 < 10)%Z.
Proof. apply Z.mod_pos_bound; lia. Qed.

Lemma digits_length k m : length (digits k m) = k.
Proof.
  revert m; induction k as [|k IH]; intros m; [reflexivity|].
  cbn [digits]. rewrite app_length, IH. cbn [length]. lia.
Qed.

Definition all_digits (s : text) : Prop := Forall (fun c => exists d, digit_val c = Some d /\ (0 <= d < 10)%Z) s.

Lemma all_digits_digits k m : all_digits (digits k m).
Proof.
  revert m; induction k as [|k IH]; intros m; [constructor|].
  cbn [digits]. apply Forall_app. split; [apply IH|].
  constructor; [|constructor]. exists (m mod 10)%Z. split; [apply digit_val_char|]; apply mod10.
Qed.

Lemma digits_val_app s1 s2 a b : digits_val a s1 = Some b -> digits_val a (s1 ++ s2) = digits_val b s2.
Proof.
  revert a; induction s1 as [|c r IH]; intros a H; cbn [digits_val app] in *.
  - injection H as ->. reflexivity.
  - destruct (digit_val c); [|discriminate]. apply IH, H.
Qed.

Lemma digits_val_digits k m a : digits_val a (digits k m) = Some (a * 10 ^ Z.of_nat k + m mod 10 ^ Z.of_nat k)%Z.
Proof.
  revert m a; induction k as [|k IH]; intros m a.
  - cbn [digits digits_val]. change (Z.of_nat 0) with 0%Z. rewrite Z.pow_0_r, Z.mod_1_r. f_equal; lia.
  - cbn [digits]. rewrite (digits_val_app _ _ _ _ (IH (m / 10)%Z a)). cbn [digits_val].
    rewrite digit_val_char by apply mod10. f_equal.
    rewrite Nat2Z.inj_succ, Z.pow_succ_r by lia.
    assert (P : (0 < 10 ^ Z.of_nat k)%Z) by (apply Z.pow_pos_nonneg; lia).
    set (p := (10 ^ Z.of_nat k)%Z) in *.
    rewrite (Z.rem_mul_r m 10 p) by lia. lia.
Qed.

Lemma all_digits_span s r : all_digits s -> (match r with c :: _ => is_digit c = false | [] => True end) ->
  span_digits (s ++ r) = (s, r).
Proof.
  intros H Hr. induction H as [|c s [d [Hd _]] _ IH]; cbn [app span_digits].
  - destruct r as [|c r]; [reflexivity|]. cbn [span_digits]. rewrite Hr. reflexivity.
  - unfold is_digit at 1. rewrite Hd. rewrite IH. reflexivity.
Qed.

Lemma all_digits_not (c : ascii) s : all_digits s -> digit_val c = None -> ~ In c s.
Proof.
  intros H Hc Hin. unfold all_digits in H. rewrite Forall_forall in H. destruct (H c Hin) as (d & Hd & _). congruence.
Qed.

(** ** number of digits *)
Lemma num_digits_from_spec fuel m : (0 <= m < 2 ^ (Z.of_nat fuel + 1))%Z ->
  (m < 10 ^ Z.of_nat (num_digits_from fuel m))%Z /\ (1 <= num_digits_from fuel m)%nat /\
  (num_digits_from fuel m = 1%nat \/ (10 ^ Z.of_nat (num_digits_from fuel m - 1) <= m)%Z).
Proof.
  revert m; induction fuel as [|f IH]; intros m H.
  - cbn [num_digits_from]. change (10 ^ Z.of_nat 1)%Z with 10%Z. change (2 ^ (Z.of_nat 0 + 1))%Z with 2%Z in H.
    repeat split; [lia|lia|left; reflexivity].
  - cbn [num_digits_from]. destruct (Z.ltb_spec m 10) as [L|L].
    + change (10 ^ Z.of_nat 1)%Z with 10%Z. repeat split; [lia|lia|left; reflexivity].
    + assert (B : (0 <= m / 10 < 2 ^ (Z.of_nat f + 1))%Z).
      { split; [apply Z.div_pos; lia|]. apply Z.div_lt_upper_bound; [lia|].
        rewrite Nat2Z.inj_succ in H. replace (Z.succ (Z.of_nat f) + 1)%Z with (Z.succ (Z.of_nat f + 1)) in H by lia.
        rewrite Z.pow_succ_r in H by lia. nia. }
      destruct (IH _ B) as (I1 & I2 & I3). set (n := num_digits_from f (m / 10)) in *.
      repeat split; [|lia|right].
      * rewrite Nat2Z.inj_succ, Z.pow_succ_r by lia.
        assert (m < 10 * (m / 10 + 1))%Z by (pose proof (Z.mul_succ_div_gt m 10); lia). nia.
      * replace (S n - 1)%nat with n by lia.
        assert (K : (10 ^ Z.of_nat (n - 1) <= m / 10)%Z).
        { destruct I3 as [I3|I3]; [|exact I3]. rewrite I3. change (10 ^ Z.of_nat (1 - 1))%Z with 1%Z.
          apply Z.div_le_lower_bound; lia. }
        replace (Z.of_nat n) with (Z.succ (Z.of_nat (n - 1))) by lia.
        rewrite Z.pow_succ_r by lia. pose proof (Z.mul_div_le m 10). lia.
Qed.

Lemma num_digits_spec m : (0 <= m)%Z ->
  (m < 10 ^ Z.of_nat (num_digits m))%Z /\ (1 <= num_digits m)%nat /\
  (num_digits m = 1%nat \/ (10 ^ Z.of_nat (num_digits m - 1) <= m)%Z).
Proof.
  intros H. unfold num_digits. apply num_digits_from_spec.
  rewrite Z2Nat.id by apply Z.log2_nonneg.
  destruct (Z.eq_dec m 0) as [->|Hne]; [split; [lia|reflexivity]|].
  pose proof (Z.log2_spec m ltac:(lia)) as [_ L]. replace (Z.log2 m + 1)%Z with (Z.succ (Z.log2 m)) by lia. lia.
Qed.

Lemma num_digits_le m k : (0 <= m < 10 ^ Z.of_nat k)%Z -> (1 <= k)%nat -> (num_digits m <= k)%nat.
Proof.
  intros [H H1] Hk. destruct (num_digits_spec m H) as (_ & _ & [E|E]); [lia|].
  destruct (le_lt_dec (num_digits m) k) as [L|L]; [exact L|].
  assert ((10 ^ Z.of_nat k <= 10 ^ Z.of_nat (num_digits m - 1))%Z) by (apply Z.pow_le_mono_r; lia). lia.
Qed.

Lemma str_nat_length m : length (str_nat m) = num_digits m.
Proof. apply digits_length. Qed.

Lemma str_nat_val m : (0 <= m)%Z -> digits_val 0 (str_nat m) = Some m.
Proof.
  intros H. unfold str_nat. rewrite digits_val_digits. f_equal.
  destruct (num_digits_spec m H) as (L & _). rewrite Z.mod_small by lia. lia.
Qed.

Lemma digits_val_zeros k s : digits_val 0 (repeat c_zero k ++ s) = digits_val 0 s.
Proof. induction k as [|k IH]; [reflexivity|]. cbn [repeat app digits_val]. exact IH. Qed.

Lemma pad_zero_val w m : (0 <= m)%Z -> digits_val 0 (pad c_zero w (str_nat m)) = Some m.
Proof. intros H. unfold pad. rewrite digits_val_zeros. apply str_nat_val, H. Qed.

Lemma str_nat_nonempty m : (0 <= m)%Z -> str_nat m <> [].
Proof.
  intros H E. pose proof (str_nat_length m) as L. rewrite E in L. cbn in L.
  destruct (num_digits_spec m H) as (_ & L1 & _). lia.
Qed.

Lemma parse_nat_some s v : s <> [] -> digits_val 0 s = Some v -> parse_nat s = Some v.
Proof. destruct s; [congruence|]. intros _ H. exact H. Qed.

Lemma all_digits_zeros k : all_digits (repeat c_zero k).
Proof. induction k; [constructor|]. cbn [repeat]. constructor; [|assumption]. exists 0%Z. split; [reflexivity|lia]. Qed.

Lemma all_digits_pad w m : all_digits (pad c_zero w (str_nat m)).
Proof. apply Forall_app. split; [apply all_digits_zeros|apply all_digits_digits]. Qed.

(** a text starting with a digit has no sign *)
Lemma take_sign_digits s : all_digits s -> take_sign s = (false, s).
Proof.
  intros H. destruct H as [|c s [d [Hd _]] _]; [reflexivity|]. cbn [take_sign].
  destruct (Ascii.eqb_spec c c_minus) as [->|_]; [discriminate|].
  destruct (Ascii.eqb_spec c c_plus) as [->|_]; [discriminate|]. reflexivity.
Qed.

Lemma parse_str_int m : parse_int (str_int m) = Some m.
Proof.
  unfold parse_int, str_int. destruct (Z.ltb_spec m 0) as [L|L].
  - cbn [take_sign]. rewrite Ascii.eqb_refl.
    rewrite (parse_nat_some _ (- m)%Z) by (try apply str_nat_nonempty; try apply str_nat_val; lia). f_equal. lia.
  - rewrite take_sign_digits by apply all_digits_digits.
    rewrite (parse_nat_some _ m) by (try apply str_nat_nonempty; try apply str_nat_val; lia). reflexivity.
Qed.

(** ** powers of ten *)
Lemma ten_nz : ~ 10 # 1 == 0.
Proof. discriminate. Qed.
Lemma pow10_plus a b : pow10 (a + b) == pow10 a * pow10 b.
Proof. apply Qpower_plus, ten_nz. Qed.
Lemma pow10_nat k : (0 <= k)%Z -> pow10 k == inject_Z (10 ^ k).
Proof. intros H. symmetry. apply Zpower_Qpower, H. Qed.
Lemma pow10_pos e : 0 < pow10 e.
Proof. apply Qpower_0_lt. reflexivity. Qed.
Lemma pow10_lt a b : (a < b)%Z -> pow10 a < pow10 b.
Proof.
  intros H. replace b with (a + (b - a))%Z by lia. rewrite pow10_plus. rewrite (pow10_nat (b - a)) by lia.
  assert (K : (10 <= 10 ^ (b - a))%Z).
  { change 10%Z with (10 ^ 1)%Z at 1. apply Z.pow_le_mono_r; lia. }
  assert (10 <= inject_Z (10 ^ (b - a))) by (change 10 with (inject_Z 10); rewrite <- Zle_Qle; exact K).
  pose proof (pow10_pos a). nra.
Qed.
Lemma pow10_le a b : (a <= b)%Z -> pow10 a <= pow10 b.
Proof.
  intros H. destruct (Z.eq_dec a b) as [->|Hne]; [apply Qle_refl|]. apply Qlt_le_weak, pow10_lt. lia.
Qed.
Lemma pow10_lt_inv a b : pow10 a < pow10 b -> (a < b)%Z.
Proof.
  intros H. destruct (Z_lt_le_dec a b) as [L|L]; [exact L|]. pose proof (pow10_le _ _ L). lra.
Qed.
Lemma pow10_0 : pow10 0 == 1.
Proof. reflexivity. Qed.
Lemma pow10_inv e : pow10 e * pow10 (- e) == 1.
Proof. rewrite <- pow10_plus. replace (e + - e)%Z with 0%Z by lia. reflexivity. Qed.

Lemma ten_to_pow10 e : ten_to e == pow10 e.
Proof.
  unfold ten_to. destruct (Z.leb_spec 0 e) as [L|L]; [symmetry; apply pow10_nat, L|].
  pose proof (pow10_inv e) as I. rewrite (pow10_nat (- e)) in I by lia.
  assert (P : 0 < inject_Z (10 ^ (- e))).
  { change 0 with (inject_Z 0). rewrite <- Zlt_Qlt. apply Z.pow_pos_nonneg; lia. }
  assert (~ inject_Z (10 ^ (- e)) == 0) by lra.
  setoid_replace (pow10 e) with (pow10 e * inject_Z (10 ^ (- e)) * / inject_Z (10 ^ (- e))) by (field; assumption).
  rewrite I. ring.
Qed.

(** ** the decimal exponent *)
Lemma exp_up_spec fuel k x : pow10 k <= x -> x < pow10 (k + Z.of_nat fuel + 1) ->
  pow10 (exp_up fuel k x) <= x /\ x < pow10 (exp_up fuel k x + 1).
Proof.
  revert k; induction fuel as [|f IH]; intros k H1 H2; cbn [exp_up].
  - replace (k + Z.of_nat 0 + 1)%Z with (k + 1)%Z in H2 by lia. split; assumption.
  - qcase_le (pow10 (k + 1)) x L.
    + apply IH; [exact L|]. replace (k + 1 + Z.of_nat f + 1)%Z with (k + Z.of_nat (S f) + 1)%Z by lia. exact H2.
    + split; assumption.
Qed.
Lemma exp_down_spec fuel k x : x < pow10 (k + 1) -> pow10 (k - Z.of_nat fuel) <= x ->
  pow10 (exp_down fuel k x) <= x /\ x < pow10 (exp_down fuel k x + 1).
Proof.
  revert k; induction fuel as [|f IH]; intros k H1 H2; cbn [exp_down].
  - replace (k - Z.of_nat 0)%Z with k in H2 by lia. split; assumption.
  - qcase_le (pow10 k) x L.
    + split; assumption.
    + apply IH; [replace (k - 1 + 1)%Z with k by lia; exact L|].
      replace (k - 1 - Z.of_nat f)%Z with (k - Z.of_nat (S f))%Z by lia. exact H2.
Qed.

Lemma two_ten k : (0 <= k)%Z -> (2 ^ k <= 10 ^ k)%Z.
Proof. intros H. apply Z.pow_le_mono_l. lia. Qed.

Lemma exponent_spec x : 0 < x -> pow10 (exponent x) <= x /\ x < pow10 (exponent x + 1).
Proof.
  intros Hx. unfold exponent. qcase_le 1 x L.
  - apply exp_up_spec; [exact L|].
    assert (Hn : (0 < Qnum x)%Z) by (unfold Qlt in Hx; simpl in Hx; lia).
    pose proof (Z.log2_nonneg (Qnum x)) as G. pose proof (Z.log2_spec _ Hn) as [_ Hl].
    rewrite Z2Nat.id by lia. rewrite pow10_nat by lia.
    replace (0 + (Z.log2 (Qnum x) + 1) + 1)%Z with (Z.succ (Z.succ (Z.log2 (Qnum x)))) by lia.
    apply Qle_lt_trans with (inject_Z (Qnum x)).
    + unfold Qle, inject_Z; simpl. nia.
    + rewrite <- Zlt_Qlt. eapply Z.lt_le_trans; [exact Hl|].
      eapply Z.le_trans; [apply two_ten; lia|]. apply Z.pow_le_mono_r; lia.
  - apply exp_down_spec; [exact L|].
    pose proof (Z.log2_nonneg (Zpos (Qden x))) as G. pose proof (Z.log2_spec (Zpos (Qden x)) ltac:(lia)) as [_ Hl].
    rewrite Z2Nat.id by lia.
    set (F := (Z.log2 (Z.pos (Qden x)) + 1)%Z) in *.
    assert (P10 : (Zpos (Qden x) < 10 ^ (F + 1))%Z).
    { eapply Z.lt_le_trans; [exact Hl|]. eapply Z.le_trans; [apply two_ten; lia|]. apply Z.pow_le_mono_r; lia. }
    pose proof (pow10_inv (F + 1)) as I. rewrite pow10_nat in I by lia.
    replace (- (F + 1))%Z with (-1 - F)%Z in I by lia.
    assert (D : 1 <= x * inject_Z (Zpos (Qden x))).
    { unfold Qlt in Hx. simpl in Hx. unfold Qle, Qmult, inject_Z; simpl. nia. }
    assert (D2 : inject_Z (Zpos (Qden x)) < inject_Z (10 ^ (F + 1))) by (rewrite <- Zlt_Qlt; exact P10).
    pose proof (pow10_pos (-1 - F)).
    destruct (Qlt_le_dec x (pow10 (-1 - F))) as [C|C]; [|exact C].
    assert (0 < inject_Z (Zpos (Qden x))) by (change 0 with (inject_Z 0); rewrite <- Zlt_Qlt; lia).
    nra.
Qed.

Lemma exponent_unique x e : pow10 e <= x -> x < pow10 (e + 1) -> exponent x = e.
Proof.
  intros H1 H2. assert (Hx : 0 < x) by (pose proof (pow10_pos e); lra).
  destruct (exponent_spec x Hx) as (E1 & E2).
  assert (exponent x < e + 1)%Z by (apply pow10_lt_inv; lra).
  assert (e < exponent x + 1)%Z by (apply pow10_lt_inv; lra). lia.
Qed.

(** ** rounding *)
Lemma round_even_near x : Qabs (inject_Z (round_even x) - x) <= 1 # 2.
Proof.
  unfold round_even. pose proof (qfloor_le x) as L. pose proof (qfloor_lt x) as U.
  set (f := qfloor x) in *. cbv zeta.
  assert (P1 : inject_Z (f + 1) == inject_Z f + 1) by (rewrite inject_Z_plus; reflexivity).
  apply Qabs_Qle_condition.
  qcase_lt (x - inject_Z f) (1 # 2) H1; [split; lra|].
  qcase_lt (1 # 2) (x - inject_Z f) H2; [rewrite P1; split; lra|].
  destruct (Z.even f); [|rewrite P1]; split; lra.
Qed.

Lemma inject_close a b x : Qabs (inject_Z a - x) <= 1 # 2 -> inject_Z b <= x -> (b <= a)%Z.
Proof.
  intros H1 H2. apply Qabs_Qle_condition in H1. destruct (Z_lt_le_dec a b) as [L|L]; [|exact L].
  exfalso. assert (K : inject_Z (a + 1) <= inject_Z b) by (rewrite <- Zle_Qle; lia).
  rewrite inject_Z_plus in K. change (inject_Z 1) with 1 in K. lra.
Qed.
Lemma inject_close2 a b x : Qabs (inject_Z a - x) <= 1 # 2 -> x <= inject_Z b -> (a <= b)%Z.
Proof.
  intros H1 H2. apply Qabs_Qle_condition in H1. destruct (Z_lt_le_dec b a) as [L|L]; [|exact L].
  exfalso. assert (K : inject_Z (b + 1) <= inject_Z a) by (rewrite <- Zle_Qle; lia).
  rewrite inject_Z_plus in K. change (inject_Z 1) with 1 in K. lra.
Qed.
Lemma round_even_int x m : x == inject_Z m -> round_even x = m.
Proof.
  intros H. pose proof (round_even_near x) as N.
  assert (m <= round_even x)%Z by (apply inject_close with x; [exact N|lra]).
  assert (round_even x <= m)%Z by (apply inject_close2 with x; [exact N|lra]). lia.
Qed.

Lemma qfloor_comp x y : x == y -> qfloor x = qfloor y.
Proof.
  intros H. pose proof (qfloor_le x). pose proof (qfloor_lt x). pose proof (qfloor_le y). pose proof (qfloor_lt y).
  assert (A : inject_Z (qfloor x) < inject_Z (qfloor y + 1)) by (rewrite inject_Z_plus; change (inject_Z 1) with 1; lra).
  assert (B : inject_Z (qfloor y) < inject_Z (qfloor x + 1)) by (rewrite inject_Z_plus; change (inject_Z 1) with 1; lra).
  rewrite <- Zlt_Qlt in A, B. lia.
Qed.
Lemma qltb_comp a a' b b' : a == a' -> b == b' -> qltb a b = qltb a' b'.
Proof.
  intros H1 H2. qcase_lt a b L; qcase_lt a' b' L'; try reflexivity; exfalso; lra.
Qed.
Lemma qeqb_comp a a' b b' : a == a' -> b == b' -> qeqb a b = qeqb a' b'.
Proof.
  intros H1 H2. qcase_eq a b L; qcase_eq a' b' L'; try reflexivity; exfalso; lra.
Qed.
Lemma round_even_comp x y : x == y -> round_even x = round_even y.
Proof.
  intros H. unfold round_even. rewrite (qfloor_comp x y H). cbv zeta.
  rewrite (qltb_comp (x - inject_Z (qfloor y)) (y - inject_Z (qfloor y)) (1#2) (1#2)) by lra.
  rewrite (qltb_comp (1#2) (1#2) (x - inject_Z (qfloor y)) (y - inject_Z (qfloor y))) by lra. reflexivity.
Qed.

Lemma exponent_comp x y : 0 < x -> x == y -> exponent x = exponent y.
Proof.
  intros Hx H. destruct (exponent_spec y ltac:(lra)) as (E1 & E2). apply exponent_unique; lra.
Qed.
Lemma sci_comp x y : 0 <= x -> x == y -> sci x = sci y.
Proof.
  intros Hx H. unfold sci. rewrite (qeqb_comp x y 0 0 H) by lra.
  qcase_eq y 0 Hy; [reflexivity|].
  assert (E : exponent x = exponent y) by (apply exponent_comp; lra). cbv zeta. rewrite E.
  rewrite (round_even_comp (x * pow10 (8 - exponent y)) (y * pow10 (8 - exponent y))) by (rewrite H; reflexivity).
  reflexivity.
Qed.

Lemma fmt_e_comp x y : x == y -> fmt_e x = fmt_e y.
Proof.
  intros H. unfold fmt_e. rewrite (qltb_comp x y 0 0 H) by lra.
  qcase_lt y 0 L; [do 2 f_equal|f_equal]; apply sci_comp; lra.
Qed.

(** the nine digits and the exponent *)
Definition sci_value (me : Z * Z) : Q := inject_Z (fst me) * pow10 (snd me - 8).

Lemma sci_spec x : 0 < x ->
  (10 ^ 8 <= fst (sci x) < 10 ^ 9)%Z /\
  (exponent x <= snd (sci x) <= exponent x + 1)%Z /\
  Qabs (sci_value (sci x) - x) <= (1 # 2) * pow10 (exponent x - 8).
Proof.
  intros Hx. destruct (exponent_spec x Hx) as (E1 & E2). unfold sci.
  qcase_eq x 0 H0; [lra|]. cbv zeta. set (e := exponent x) in *.
  assert (P : 0 < pow10 (8 - e)) by apply pow10_pos.
  assert (P' : 0 < pow10 (e - 8)) by apply pow10_pos.
  assert (I : pow10 (8 - e) * pow10 (e - 8) == 1).
  { rewrite <- pow10_plus. replace (8 - e + (e - 8))%Z with 0%Z by lia. reflexivity. }
  assert (B1 : inject_Z (10 ^ 8) <= x * pow10 (8 - e)).
  { rewrite <- (pow10_nat 8) by lia. replace 8%Z with (e + (8 - e))%Z at 1 by lia. rewrite pow10_plus. nra. }
  assert (B2 : x * pow10 (8 - e) <= inject_Z (10 ^ 9)).
  { rewrite <- (pow10_nat 9) by lia. replace 9%Z with (e + 1 + (8 - e))%Z at 1 by lia. rewrite pow10_plus. nra. }
  pose proof (round_even_near (x * pow10 (8 - e))) as N. set (m := round_even (x * pow10 (8 - e))) in *.
  pose proof (inject_close _ _ _ N B1) as M1. pose proof (inject_close2 _ _ _ N B2) as M2.
  assert (ER : Qabs (inject_Z m * pow10 (e - 8) - x) <= (1 # 2) * pow10 (e - 8)).
  { setoid_replace (inject_Z m * pow10 (e - 8) - x)
      with ((inject_Z m - x * pow10 (8 - e)) * pow10 (e - 8)).
    - rewrite Qabs_Qmult. rewrite (Qabs_pos (pow10 (e - 8))) by lra.
      apply Qmult_le_compat_r; [exact N|lra].
    - setoid_replace x with (x * (pow10 (8 - e) * pow10 (e - 8))) at 1; [ring|rewrite I; ring]. }
  destruct (Z.eqb_spec m (10 ^ 9)) as [Em|Em].
  - unfold sci_value. cbn [fst snd]. split; [lia|]. split; [lia|].
    setoid_replace (inject_Z (10 ^ 8) * pow10 (e + 1 - 8)) with (inject_Z m * pow10 (e - 8)); [exact ER|].
    rewrite Em. replace (e + 1 - 8)%Z with (1 + (e - 8))%Z by lia. rewrite pow10_plus.
    change (pow10 1) with (inject_Z 10). rewrite Qmult_assoc, <- inject_Z_mult.
    replace (10 ^ 8 * 10)%Z with (10 ^ 9)%Z by reflexivity. reflexivity.
  - unfold sci_value. cbn [fst snd]. split; [lia|]. split; [lia|]. exact ER.
Qed.

(** reading the printed digits and printing again gives the same digits *)
Lemma sci_value_sci me : (10 ^ 8 <= fst me < 10 ^ 9)%Z -> sci (sci_value me) = me.
Proof.
  destruct me as [m e]. unfold sci_value. cbn [fst snd]. intros [H1 H2].
  assert (P : 0 < pow10 (e - 8)) by apply pow10_pos.
  assert (Q1 : inject_Z (10 ^ 8) <= inject_Z m) by (rewrite <- Zle_Qle; exact H1).
  assert (Q2 : inject_Z m < inject_Z (10 ^ 9)) by (rewrite <- Zlt_Qlt; exact H2).
  assert (L0 : 0 < inject_Z (10 ^ 8)) by reflexivity.
  assert (E : exponent (inject_Z m * pow10 (e - 8)) = e).
  { apply exponent_unique.
    - replace e with (8 + (e - 8))%Z at 1 by lia. rewrite pow10_plus. rewrite (pow10_nat 8) by lia. nra.
    - replace (e + 1)%Z with (9 + (e - 8))%Z by lia. rewrite pow10_plus. rewrite (pow10_nat 9) by lia. nra. }
  unfold sci. qcase_eq (inject_Z m * pow10 (e - 8)) 0 H0; [nra|]. cbv zeta. rewrite E.
  rewrite (round_even_int _ m).
  - destruct (Z.eqb_spec m (10 ^ 9)); [lia|reflexivity].
  - rewrite <- Qmult_assoc, <- pow10_plus. replace (e - 8 + (8 - e))%Z with 0%Z by lia. rewrite pow10_0. ring.
Qed.
