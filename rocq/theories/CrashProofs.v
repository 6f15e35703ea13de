(** Reading the beginning of a file: proofs. *)
From Coq Require Import Ascii String.
From Verif Require Import Base FormatModel FormatSpec AsciiModel AsciiSpec FormatProofs FormatProofs2 AsciiProofs AsciiProofs2 CrashModel CrashSpec.
Open Scope Q_scope.

(** ** words of a beginning *)
Lemma words_from_space cur x c y : is_space c = true -> words_from cur (x ++ c :: y) = words_from cur x ++ words y.
Proof.
  intros H. revert cur; induction x as [|d x IH]; intros cur; cbn [app words_from].
  - rewrite H. destruct cur; reflexivity.
  - destruct (is_space d); [destruct cur|]; rewrite IH; reflexivity.
Qed.
Lemma words_from_some cur s : cur <> [] -> (1 <= length (words_from cur s))%nat.
Proof.
  revert cur; induction s as [|c s IH]; intros cur H; cbn [words_from].
  - destruct cur; [congruence|]. cbn [length]. lia.
  - destruct (is_space c); [destruct cur; [congruence|]; cbn [length]; lia|]. apply IH. destruct cur; discriminate.
Qed.
Lemma words_from_le cur s w : (length (words_from cur s) <= length (words_from cur (s ++ w)))%nat.
Proof.
  revert cur; induction s as [|c s IH]; intros cur; cbn [app words_from].
  - destruct cur as [|x cur]; [cbn [length]; lia|]. apply words_from_some. discriminate.
  - destruct (is_space c); [|apply IH]. destruct cur; [apply IH|]. cbn [length]. specialize (IH []). lia.
Qed.
Lemma words_start cur s w : starts_word w -> (length (words_from cur s) < length (words_from cur (s ++ w)))%nat.
Proof.
  intros (a & c & d & b & -> & Hc & Hd). rewrite app_assoc, words_from_space by exact Hc.
  rewrite app_length. pose proof (words_from_le cur s a).
  assert (1 <= length (words (d :: b)))%nat; [|lia].
  unfold words. cbn [words_from]. rewrite Hd. apply words_from_some. discriminate.
Qed.
Lemma words_same cur s w : firstn (length (words_from cur s) - 1) (words_from cur s) = firstn (length (words_from cur s) - 1) (words_from cur (s ++ w)).
Proof.
  revert cur; induction s as [|c s IH]; intros cur; cbn [app words_from].
  - destruct cur; cbn [length]; reflexivity.
  - destruct (is_space c); [|apply IH]. destruct cur as [|x cur]; [apply IH|]. cbn [length]. specialize (IH []).
    destruct (words_from [] s) as [|y l]; [reflexivity|]. cbn [length] in *.
    replace (S (S (length l)) - 1)%nat with (S (S (length l) - 1)) by lia. cbn [firstn]. f_equal. exact IH.
Qed.

(** ** lines of a beginning *)
Lemma lines_from_short cur s : no_nl s -> lines_from cur s = match cur ++ s with [] => [] | l => [l] end.
Proof.
  revert cur; induction s as [|c s IH]; intros cur H; cbn [lines_from].
  - rewrite app_nil_r. destruct cur; reflexivity.
  - destruct (Ascii.eqb c c_nl) eqn:E; [apply Ascii.eqb_eq in E; subst; exfalso; apply H; left; reflexivity|].
    rewrite IH by (intros K; apply H; right; exact K). rewrite <- app_assoc. reflexivity.
Qed.
Lemma lines_short s : no_nl s -> lines s = [] \/ lines s = [s].
Proof. intros H. unfold lines. rewrite lines_from_short by exact H. cbn [app]. destruct s; [left|right]; reflexivity. Qed.

(** a beginning of [a ++ b] is a beginning of [a] or goes on in [b] *)
Lemma beginning_app {A} (u w a b : list A) : u ++ w = a ++ b ->
  (exists u2, u = a ++ u2 /\ u2 ++ w = b) \/ (exists w1, u ++ w1 = a /\ w1 <> [] /\ w = w1 ++ b).
Proof.
  revert a; induction u as [|x u IH]; intros a E.
  - destruct a as [|y a]; [left; exists []; split; [reflexivity|exact E]|].
    right. exists (y :: a). split; [reflexivity|]. split; [discriminate|exact E].
  - destruct a as [|y a]; [left; exists (x :: u); split; [reflexivity|exact E]|].
    cbn [app] in E. pose proof (f_equal (fun l => match l with z :: _ => z | [] => x end) E) as E1. cbv beta iota in E1.
    pose proof (f_equal (@tl A) E) as E2. cbn [tl] in E2. subst y.
    destruct (IH a E2) as [(u2 & -> & K)|(w1 & K1 & K2 & K3)].
    + left. exists u2. split; [reflexivity|exact K].
    + right. exists w1. split; [cbn [app]; rewrite K1; reflexivity|]. split; assumption.
Qed.

(** What a reader makes of a proper beginning of what was written: it raises, or it has used up the file *)
Definition cut_ok {B} (r : result (B * handle)) (R : B -> Prop) : Prop :=
  match r with Ok (b, h) => h = [] /\ R b | Err _ => True end.
Definition fails {B} (rd : handle -> result (B * handle)) : Prop := exists e, rd [] = Err e.

Lemma cut_ok_bind {A B} (r : result (A * handle)) (g : A -> handle -> result (B * handle)) R (P : A -> Prop) :
  cut_ok r P -> (forall a, P a -> cut_ok (g a []) R) -> cut_ok ('(a, h) <- r ;; g a h) R.
Proof. intros H G. destruct r as [(a & h)|e]; [|exact I]. destruct H as [-> Ha]. exact (G a Ha). Qed.
Lemma cut_ok_sub {B} (r : result (B * handle)) (R R' : B -> Prop) : (forall b, R b -> R' b) -> cut_ok r R -> cut_ok r R'.
Proof. intros H. destruct r as [(b & h)|e]; [|exact (fun x => x)]. intros [K1 K2]. split; [exact K1|exact (H b K2)]. Qed.
Lemma fails_cut {B} (rd : handle -> result (B * handle)) R : fails rd -> cut_ok (rd []) R.
Proof. intros [e ->]. exact I. Qed.

(** one line *)
Lemma data_line_one l : cut_ok (data_line [l]) (fun _ => True).
Proof. cbn [data_line]. destruct (words l); [exact I|]. split; reflexivity || exact I. Qed.
Lemma read_int_cut u w l : u ++ w = l ++ [c_nl] -> no_nl l -> w <> [] -> cut_ok (read_int (lines u)) (fun _ => True).
Proof.
  intros E H N. assert (U : no_nl u).
  { destruct (exists_last N) as (w' & c & ->). rewrite app_assoc in E. apply app_inj_tail in E. destruct E as [<- _].
    intros K. apply H. apply in_or_app. left. exact K. }
  unfold read_int. destruct (lines_short u U) as [->| ->]; [exact I|].
  apply (cut_ok_bind _ (fun w h' => match parse_int w with Some m => Ok (m, h') | None => Err BadValue end) _ (fun _ => True)); [apply data_line_one|].
  intros a _. destruct (parse_int a); [split; [reflexivity|exact I]|exact I].
Qed.
Lemma read_float_cut u w l : u ++ w = l ++ [c_nl] -> no_nl l -> w <> [] -> cut_ok (read_float (lines u)) (fun _ => True).
Proof.
  intros E H N. assert (U : no_nl u).
  { destruct (exists_last N) as (w' & c & ->). rewrite app_assoc in E. apply app_inj_tail in E. destruct E as [<- _].
    intros K. apply H. apply in_or_app. left. exact K. }
  unfold read_float. destruct (lines_short u U) as [->| ->]; [exact I|].
  apply (cut_ok_bind _ (fun w h' => match parse_float w with Some m => Ok (m, h') | None => Err BadValue end) _ (fun _ => True)); [apply data_line_one|].
  intros a _. destruct (parse_float a); [split; [reflexivity|exact I]|exact I].
Qed.

(** several items: all but the last are complete *)
Lemma read_many_cut {A B} (rd : handle -> result (B * handle)) (wr : A -> text) (P : A -> B -> Prop) (R : A -> text -> B -> Prop) :
  fails rd -> forall l,
  (forall a r, In a l -> exists b, rd (lines (wr a ++ r)) = Ok (b, lines r) /\ P a b) ->
  (forall a u w, In a l -> u ++ w = wr a -> w <> [] -> cut_ok (rd (lines u)) (R a w)) ->
  forall u w, u ++ w = concat (map wr l) -> w <> [] ->
  cut_ok (read_many rd (length l) (lines u))
    (fun bs => exists l1 a bs1 b, l = l1 ++ [a] /\ bs = bs1 ++ [b] /\ Forall2 P l1 bs1 /\ R a w b).
Proof.
  intros F. induction l as [|a l IH]; intros OK CUT u w E N.
  - cbn [map concat] in E. apply app_eq_nil in E. destruct E as [_ ->]. congruence.
  - cbn [map concat length read_many] in *. destruct (beginning_app u w (wr a) _ E) as [(u2 & -> & E2)|(w1 & E1 & N1 & ->)].
    + destruct (OK a u2 (or_introl eq_refl)) as (b & Eb & Pb). rewrite Eb. cbn [bind].
      specialize (IH (fun a' r H => OK a' r (or_intror H)) (fun a' u' w' H => CUT a' u' w' (or_intror H)) u2 w E2 N).
      destruct (read_many rd (length l) (lines u2)) as [(bs & h)|e]; [|exact I]. cbn [bind].
      destruct IH as [-> (l1 & a1 & bs1 & b1 & -> & -> & F2 & R1)]. split; [reflexivity|].
      exists (a :: l1), a1, (b :: bs1), b1. split; [reflexivity|]. split; [reflexivity|]. split; [constructor; assumption|exact R1].
    + specialize (CUT a u w1 (or_introl eq_refl) E1 N1). destruct (rd (lines u)) as [(b & h)|e]; [|exact I]. cbn [bind].
      destruct CUT as [-> Rb]. destruct l as [|a2 l].
      * cbn [length read_many bind]. split; [reflexivity|]. cbn [map concat]. rewrite app_nil_r.
        exists [], a, [], b. split; [reflexivity|]. split; [reflexivity|]. split; [constructor|exact Rb].
      * cbn [length read_many]. destruct F as [e ->]. exact I.
Qed.
(** Items of any kind: nothing is known about the last *)
Lemma read_many_cut_any {A B} (rd : handle -> result (B * handle)) (wr : A -> text) l u w :
  fails rd ->
  (forall a r, In a l -> exists b, rd (lines (wr a ++ r)) = Ok (b, lines r)) ->
  (forall a u w, In a l -> u ++ w = wr a -> w <> [] -> cut_ok (rd (lines u)) (fun _ => True)) ->
  u ++ w = concat (map wr l) -> w <> [] -> cut_ok (read_many rd (length l) (lines u)) (fun _ => True).
Proof.
  intros F OK CUT E N. refine (cut_ok_sub _ _ _ (fun _ _ => I) (read_many_cut rd wr (fun _ _ => True) (fun _ _ _ => True) F l _ _ u w E N)).
  - intros a r H. destruct (OK a r H) as (b & K). exists b. split; [exact K|exact I].
  - exact CUT.
Qed.
Lemma read_many_nil {A B} (rd : handle -> result (B * handle)) (l : list A) R : fails rd -> l <> [] -> cut_ok (read_many rd (length l) []) R.
Proof. intros [e H] N. destruct l; [congruence|]. cbn [length read_many]. rewrite H. exact I. Qed.

Lemma cut_step {A B} (rd : handle -> result (A * handle)) (wr rest : text) (a : A) (g : A -> handle -> result (B * handle)) R u w :
  u ++ w = wr ++ rest ->
  (forall r, rd (lines (wr ++ r)) = Ok (a, lines r)) ->
  (forall w1, u ++ w1 = wr -> w1 <> [] -> cut_ok (rd (lines u)) (fun _ => True)) ->
  (forall a', cut_ok (g a' []) R) ->
  (forall u2, u2 ++ w = rest -> cut_ok (g a (lines u2)) R) ->
  cut_ok ('(a, h) <- rd (lines u) ;; g a h) R.
Proof.
  intros E OK CUT NIL GO. destruct (beginning_app u w wr rest E) as [(u2 & -> & E2)|(w1 & E1 & N1 & _)].
  - rewrite OK. cbn [bind]. apply GO, E2.
  - apply (cut_ok_bind _ g R (fun _ => True) (CUT w1 E1 N1)). intros a' _. apply NIL.
Qed.

(** ** headers *)
Lemma int_line_nl m label : int_line m label = (fmt_5i m ++ repeat c_space 18 ++ label) ++ [c_nl].
Proof. unfold int_line. rewrite <- !app_assoc. reflexivity. Qed.
Lemma float_line_nl x label : float_line x label = (fmt_18_8e x ++ repeat c_space 5 ++ label) ++ [c_nl].
Proof. unfold float_line. rewrite <- !app_assoc. reflexivity. Qed.
Lemma no_nl_int_line m label : no_nl label -> no_nl (fmt_5i m ++ repeat c_space 18 ++ label).
Proof.
  intros H. apply no_nl_app; [|apply no_nl_app; [apply no_nl_blanks|exact H]].
  unfold fmt_5i. apply no_nl_pad, no_space_no_nl. apply no_space_str_int.
Qed.
Lemma no_nl_float_line x label : no_nl label -> no_nl (fmt_18_8e x ++ repeat c_space 5 ++ label).
Proof.
  intros H. apply no_nl_app; [|apply no_nl_app; [apply no_nl_blanks|exact H]].
  unfold fmt_18_8e. apply no_nl_pad, no_space_no_nl. apply no_space_fmt_e.
Qed.
Lemma int_line_cut m label u w : no_nl label -> u ++ w = int_line m label -> w <> [] -> cut_ok (read_int (lines u)) (fun _ => True).
Proof. intros H E N. rewrite int_line_nl in E. exact (read_int_cut u w _ E (no_nl_int_line m label H) N). Qed.
Lemma float_line_cut x label u w : no_nl label -> u ++ w = float_line x label -> w <> [] -> cut_ok (read_float (lines u)) (fun _ => True).
Proof. intros H E N. rewrite float_line_nl in E. exact (read_float_cut u w _ E (no_nl_float_line x label H) N). Qed.
Lemma read_int_fails : fails read_int.
Proof. eexists. reflexivity. Qed.
Lemma read_float_fails : fails read_float.
Proof. eexists. reflexivity. Qed.

Definition positive_dims (p : patch) : Prop := Forall (fun d => (0 < d_n d)%Z) (p_dims p).
Lemma make_dims_positive ns : forall names lows ds dims, make_dims names ns lows ds = Ok dims -> Forall (fun d => (0 < d_n d)%Z) dims.
Proof.
  induction ns as [|n ns IH]; intros names lows ds dims E.
  - destruct names; assert (K : Ok [] = Ok dims) by exact E; injection K as <-; constructor.
  - destruct lows as [|lo lows]; [destruct names; assert (K : Ok [] = Ok dims) by exact E; injection K as <-; constructor|].
    destruct ds as [|d ds]; [destruct names; assert (K : Ok [] = Ok dims) by exact E; injection K as <-; constructor|].
    destruct names as [|name names]; [discriminate E|]. cbn [make_dims] in E.
    unfold new_dimension in E. destruct ((0 <? n)%Z && qltb lo (lo + inject_Z n * d))%bool eqn:V; cbn [bind] in E; [|discriminate E].
    destruct (make_dims names ns lows ds) as [r|e] eqn:M; cbn [bind] in E; [|discriminate E].
    assert (dims = mkDimn lo (lo + inject_Z n * d) n name :: r) by congruence. subst dims.
    constructor; [|exact (IH names lows ds r M)]. apply andb_true_iff in V. destruct V as [V _]. apply Z.ltb_lt, V.
Qed.

Lemma header_cut p nd u w : length (p_dims p) = nd -> (1 <= nd <= 3)%nat -> Forall valid_dim (p_dims p) ->
  u ++ w = patch_header p -> w <> [] -> cut_ok (read_patch_header nd (lines u)) positive_dims.
Proof.
  intros Hn H3 V E N. unfold patch_header in E. unfold read_patch_header.
  rewrite Forall_forall in V. assert (ND : p_dims p <> []) by (intros K; rewrite K in Hn; cbn [length] in Hn; lia).
  refine (cut_step read_int _ _ _ (fun index h => '(level, h) <- read_int h ;; _) _ _ _ E _ _ _ _).
  { intros r. apply read_int_line, no_nl_lit. reflexivity. }
  { intros w1 E1 N1. apply (int_line_cut _ _ _ _ (no_nl_lit "patch_number" eq_refl) E1 N1). }
  { intros a'. exact I. }
  clear u E. intros u E.
  refine (cut_step read_int _ _ _ (fun level h => '(ns, h) <- read_many read_int nd h ;; _) _ _ _ E _ _ _ _).
  { intros r. apply read_int_line, no_nl_lit. reflexivity. }
  { intros w1 E1 N1. apply (int_line_cut _ _ _ _ (no_nl_lit "AMR_level" eq_refl) E1 N1). }
  { intros a'. rewrite <- Hn. destruct (p_dims p); [congruence|]. exact I. }
  clear u E. intros u E. rewrite <- Hn.
  refine (cut_step (read_many read_int (length (p_dims p))) _ _ _ (fun ns h => '(lows, h) <- read_many read_float (length (p_dims p)) h ;; _) _ _ _ E _ _ _ _).
  { intros r. apply (read_many_map read_int _ d_n). intros d r' Hd. apply read_int_line. apply no_nl_lit_app; [reflexivity|]. apply V, Hd. }
  { intros w1 E1 N1. apply (read_many_cut_any read_int _ (p_dims p) u w1 read_int_fails) with (3 := E1) (4 := N1).
    - intros d r' Hd. eexists. apply read_int_line. apply no_nl_lit_app; [reflexivity|]. apply V, Hd.
    - intros d u' w' Hd E' N'. refine (int_line_cut _ _ _ _ _ E' N'). apply no_nl_lit_app; [reflexivity|]. apply V, Hd. }
  { intros a'. destruct (p_dims p); [congruence|]. exact I. }
  clear u E. intros u E.
  refine (cut_step (read_many read_float (length (p_dims p))) _ _ _ (fun lows h => '(ds, h) <- read_many read_float (length (p_dims p)) h ;; _) _ _ _ E _ _ _ _).
  { intros r. apply (read_many_map read_float _ (fun d => reread (d_lower d))). intros d r' Hd. apply read_float_line. apply no_nl_app; [apply V, Hd|apply no_nl_lit; reflexivity]. }
  { intros w1 E1 N1. apply (read_many_cut_any read_float _ (p_dims p) u w1 read_float_fails) with (3 := E1) (4 := N1).
    - intros d r' Hd. eexists. apply read_float_line. apply no_nl_app; [apply V, Hd|apply no_nl_lit; reflexivity].
    - intros d u' w' Hd E' N'. refine (float_line_cut _ _ _ _ _ E' N'). apply no_nl_app; [apply V, Hd|apply no_nl_lit; reflexivity]. }
  { intros a'. destruct (p_dims p); [congruence|]. exact I. }
  clear u E. intros u E.
  refine (cut_step (read_many read_float (length (p_dims p))) _ _ _ (fun ds h => let h := tl h in _) _ _ _ E _ _ _ _).
  { intros r. apply (read_many_map read_float _ (fun d => reread (d_delta d))). intros d r' Hd. apply read_float_line. apply no_nl_lit_app; [reflexivity|]. apply V, Hd. }
  { intros w1 E1 N1. apply (read_many_cut_any read_float _ (p_dims p) u w1 read_float_fails) with (3 := E1) (4 := N1).
    - intros d r' Hd. eexists. apply read_float_line. apply no_nl_lit_app; [reflexivity|]. apply V, Hd.
    - intros d u' w' Hd E' N'. refine (float_line_cut _ _ _ _ _ E' N'). apply no_nl_lit_app; [reflexivity|]. apply V, Hd. }
  { intros a'. cbv zeta. cbn [tl]. destruct (make_dims _ _ _ a') as [ds|e] eqn:M; cbn [bind]; [|exact I].
    split; [reflexivity|]. exact (make_dims_positive _ _ _ _ _ M). }
  clear u E. intros u E. assert (u = []).
  { destruct u as [|c u]; [reflexivity|]. destruct w as [|c' w]; [congruence|].
    apply (f_equal (@length ascii)) in E. cbn [app length] in E. rewrite app_length in E. cbn [length] in E. lia. }
  subst u. cbv zeta. cbn [lines lines_from tl]. destruct (make_dims _ _ _ _) as [ds|e] eqn:M; cbn [bind]; [|exact I].
  split; [reflexivity|]. exact (make_dims_positive _ _ _ _ _ M).
Qed.
