(** Frames in the ForestClaw format: proofs. *)
From Coq Require Import Ascii String.
From Verif Require Import Base FormatModel FormatSpec AsciiModel AsciiSpec FormatProofs FormatProofs2 AsciiProofs AsciiProofs2
  ForestModel ForestSpec.
Open Scope Q_scope.

(** ** headers *)
Lemma forest_header_ok p x rest nd : length (p_dims p) = nd -> (nd <= 3)%nat -> Forall valid_dim (p_dims p) ->
  read_forest_header nd (lines (forest_header p x ++ rest)) = Ok (reread_patch p, x, lines rest).
Proof.
  intros Hn H3 V. unfold read_forest_header, forest_header. rewrite <- !app_assoc.
  rewrite read_int_line by (apply no_nl_lit; reflexivity). cbn [bind].
  rewrite read_int_line by (apply no_nl_lit; reflexivity). cbn [bind].
  rewrite read_int_line by (apply no_nl_lit; reflexivity). cbn [bind].
  rewrite read_int_line by (apply no_nl_lit; reflexivity). cbn [bind].
  rewrite Forall_forall in V.
  rewrite <- Hn.
  rewrite (read_many_map read_int _ d_n).
  2:{ intros d r Hd. apply read_int_line. apply no_nl_lit_app; [reflexivity|]. apply V, Hd. }
  cbn [bind].
  rewrite (read_many_map read_float _ (fun d => reread (d_lower d))).
  2:{ intros d r Hd. apply read_float_line. apply no_nl_app; [apply V, Hd|apply no_nl_lit; reflexivity]. }
  cbn [bind].
  rewrite (read_many_map read_float _ (fun d => reread (d_delta d))).
  2:{ intros d r Hd. apply read_float_line. apply no_nl_lit_app; [reflexivity|]. apply V, Hd. }
  cbn [bind].
  rewrite make_dims_ok; [|cbn [length]; lia|apply Forall_forall; exact V]. destruct x. reflexivity.
Qed.

(** a floating point number is no integer, an integer is a floating point number *)
Lemma digits_val_dot a s b acc : digit_val a <> None -> s = a :: c_dot :: b -> digits_val acc s = None.
Proof. intros H ->. cbn [digits_val]. destruct (digit_val a); [reflexivity|congruence]. Qed.
Lemma parse_int_fmt_e x : parse_int (fmt_e x) = None.
Proof.
  assert (K : forall y, 0 <= y -> exists a b, digit_val a <> None /\ Ascii.eqb a c_minus = false /\ Ascii.eqb a c_plus = false /\
             fmt_sci (sci y) = a :: c_dot :: b).
  { intros y Hy. pose proof (sci_range y Hy) as R. unfold fmt_sci.
    assert (D : (0 <= fst (sci y) / 10 ^ 8 < 10)%Z) by (split; [apply Z.div_pos; lia|apply Z.div_lt_upper_bound; lia]).
    pose proof (digit_val_char _ D) as V. do 2 eexists. split; [rewrite V; discriminate|]. split; [|split; [|reflexivity]].
    - apply Ascii.eqb_neq. intros E. rewrite E in V. discriminate.
    - apply Ascii.eqb_neq. intros E. rewrite E in V. discriminate. }
  unfold parse_int, fmt_e. destruct (qltb x 0) eqn:C.
  - destruct (K (- x)) as (a & b & Ha & _ & _ & E); [apply qltb_lt in C; lra|]. rewrite E.
    unfold take_sign. cbn [Ascii.eqb]. replace (Ascii.eqb c_minus c_minus) with true by reflexivity. cbv beta iota.
    unfold parse_nat. rewrite (digits_val_dot a _ b _ Ha eq_refl). reflexivity.
  - destruct (K x) as (a & b & Ha & M & P & E); [destruct (Qlt_le_dec x 0) as [L|L]; [apply qltb_lt in L; congruence|exact L]|].
    rewrite E. unfold take_sign. rewrite M, P. cbv beta iota. unfold parse_nat.
    rewrite (digits_val_dot a _ b _ Ha eq_refl). reflexivity.
Qed.
Lemma read_int_float_line x label rest : no_nl label ->
  read_int (lines (float_line x label ++ rest)) = Err BadValue.
Proof.
  intros H. unfold read_int, float_line, fmt_18_8e.
  rewrite data_line_padded by (try lia; try apply no_space_fmt_e; try apply fmt_e_nonempty; assumption).
  cbn [bind]. rewrite parse_int_fmt_e. reflexivity.
Qed.
Lemma all_digits_str_nat m : all_digits (str_nat m).
Proof. apply all_digits_digits. Qed.
Lemma parse_float_digits s : all_digits s -> s <> [] -> forall neg, parse_float (if neg : bool then c_minus :: s else s) <> None.
Proof.
  intros A N neg. unfold parse_float.
  assert (T : take_sign (if neg then c_minus :: s else s) = (neg, s)).
  { destruct neg; [reflexivity|]. apply take_sign_digits, A. }
  rewrite T. cbv beta iota. rewrite <- (app_nil_r s) at 1. rewrite (all_digits_span s [] A I). cbv beta iota.
  unfold parse_nat. rewrite app_nil_r.
  assert (V : forall acc, digits_val acc s <> None).
  { clear N T. induction A as [|c s (d & Hd & _) _ IH]; intros acc; [discriminate|]. cbn [digits_val]. rewrite Hd. apply IH. }
  destruct s as [|c s]; [congruence|]. destruct (digits_val 0 (c :: s)) as [m|] eqn:E; [discriminate|]. exfalso. exact (V 0%Z E).
Qed.
Lemma read_float_int_line m label rest : no_nl label ->
  exists x, read_float (lines (int_line m label ++ rest)) = Ok (x, lines rest).
Proof.
  intros H. unfold read_float, int_line, fmt_5i.
  rewrite data_line_padded by (try lia; try apply no_space_str_int; try apply str_int_nonempty; assumption).
  cbn [bind]. assert (P : parse_float (str_int m) <> None).
  { unfold str_int. destruct (m <? 0)%Z eqn:C.
    - apply (parse_float_digits (str_nat (- m)) (all_digits_str_nat _)) with (neg := true).
      pose proof (str_int_nonempty (- m)) as K. unfold str_int in K. apply Z.ltb_lt in C.
      replace (- m <? 0)%Z with false in K by (symmetry; apply Z.ltb_ge; lia). exact K.
    - apply (parse_float_digits (str_nat m) (all_digits_str_nat _)) with (neg := false).
      pose proof (str_int_nonempty m) as K. unfold str_int in K. rewrite C in K. exact K. }
  destruct (parse_float (str_int m)) as [x|]; [|congruence]. exists x. reflexivity.
Qed.

(** an ordinary header read as one of ForestClaw *)
Lemma forest_reads_ordinary p rest nd : length (p_dims p) = nd -> (1 <= nd <= 3)%nat -> Forall valid_dim (p_dims p) ->
  read_forest_header nd (lines (patch_header p ++ rest)) = Err BadValue.
Proof.
  intros Hn H3 V. unfold read_forest_header, patch_header. rewrite <- !app_assoc.
  rewrite read_int_line by (apply no_nl_lit; reflexivity). cbn [bind].
  rewrite read_int_line by (apply no_nl_lit; reflexivity). cbn [bind].
  subst nd. destruct (p_dims p) as [|d [|e [|f [|g l]]]]; cbn [length] in H3; try lia; clear H3;
    repeat (apply Forall_cons_iff in V; destruct V as ((_ & _ & ?) & V)); cbn [map concat length];
    rewrite ?app_nil_r, <- ?app_assoc.
  - rewrite read_int_line by (apply no_nl_lit_app; [reflexivity|assumption]). cbn [bind].
    rewrite read_int_float_line by (apply no_nl_app; [assumption|apply no_nl_lit; reflexivity]). reflexivity.
  - rewrite read_int_line by (apply no_nl_lit_app; [reflexivity|assumption]). cbn [bind].
    rewrite read_int_line by (apply no_nl_lit_app; [reflexivity|assumption]). cbn [bind read_many].
    rewrite read_int_float_line by (apply no_nl_app; [assumption|apply no_nl_lit; reflexivity]). reflexivity.
  - rewrite read_int_line by (apply no_nl_lit_app; [reflexivity|assumption]). cbn [bind].
    rewrite read_int_line by (apply no_nl_lit_app; [reflexivity|assumption]). cbn [bind read_many].
    rewrite read_int_line by (apply no_nl_lit_app; [reflexivity|assumption]). cbn [bind].
    rewrite read_int_float_line by (apply no_nl_app; [assumption|apply no_nl_lit; reflexivity]). reflexivity.
Qed.

(** a header of ForestClaw with block 0 (or less) read as an ordinary one *)
Ltac nolines := first [apply no_nl_lit; reflexivity | apply no_nl_lit_app; [reflexivity|assumption]
                       | apply no_nl_app; [assumption|apply no_nl_lit; reflexivity]].
Lemma new_dimension_none lo up n name : (n <= 0)%Z -> new_dimension lo up n name = Err AssertFails.
Proof. intros H. unfold new_dimension. replace (0 <? n)%Z with false by (symmetry; apply Z.ltb_ge; exact H). reflexivity. Qed.
Lemma ordinary_reads_forest p x rest nd : length (p_dims p) = nd -> (1 <= nd <= 3)%nat -> Forall valid_dim (p_dims p) ->
  (x_block x <= 0)%Z -> read_patch_header nd (lines (forest_header p x ++ rest)) = Err AssertFails.
Proof.
  intros Hn H3 V B. unfold read_patch_header, forest_header. rewrite <- !app_assoc.
  do 2 (rewrite read_int_line by nolines; cbn [bind]).
  subst nd. destruct (p_dims p) as [|d [|e [|f [|g l]]]]; cbn [length] in H3; try lia; clear H3;
    repeat (apply Forall_cons_iff in V; destruct V as ((_ & _ & ?) & V)); cbn [map concat length];
    rewrite ?app_nil_r, <- ?app_assoc.
  - cbn [read_many]. rewrite read_int_line by nolines. cbn [bind].
    do 2 (match goal with |- context [read_float (lines (int_line ?m ?lab ++ ?r))] =>
      let y := fresh in let E := fresh in destruct (read_float_int_line m lab r) as (y & E); [nolines|]; rewrite E; clear E end;
      cbn [bind]).
    cbn [make_dims]. rewrite new_dimension_none by exact B. reflexivity.
  - cbn [read_many]. do 2 (rewrite read_int_line by nolines; cbn [bind]).
    do 2 (match goal with |- context [read_float (lines (int_line ?m ?lab ++ ?r))] =>
      let y := fresh in let E := fresh in destruct (read_float_int_line m lab r) as (y & E); [nolines|]; rewrite E; clear E end;
      cbn [bind]).
    do 2 (rewrite read_float_line by nolines; cbn [bind]).
    cbn [make_dims]. rewrite new_dimension_none by exact B. reflexivity.
  - cbn [read_many]. do 3 (rewrite read_int_line by nolines; cbn [bind]).
    do 2 (match goal with |- context [read_float (lines (int_line ?m ?lab ++ ?r))] =>
      let y := fresh in let E := fresh in destruct (read_float_int_line m lab r) as (y & E); [nolines|]; rewrite E; clear E end;
      cbn [bind]).
    do 4 (rewrite read_float_line by nolines; cbn [bind]).
    cbn [make_dims]. rewrite new_dimension_none by exact B. reflexivity.
Qed.

(** ** names of files *)
Lemma digits_then (u v x y : text) c c' : all_digits u -> all_digits v -> digit_val c = None -> digit_val c' = None ->
  u ++ c :: x = v ++ c' :: y -> c = c'.
Proof.
  revert v; induction u as [|a u IH]; intros [|b v] Hu Hv Hc Hc' E; cbn [app] in E; inversion E; subst.
  - reflexivity.
  - inversion Hv as [|? ? (d & Hd & _) _]; subst. congruence.
  - inversion Hu as [|? ? (d & Hd & _) _]; subst. congruence.
  - inversion Hu; inversion Hv; subst. eapply IH; eauto.
Qed.
Lemma last_letter x y c c' m n : digit_val c = None -> digit_val c' = None ->
  x ++ c :: zfill4 m = y ++ c' :: zfill4 n -> c = c'.
Proof.
  intros Hc Hc' E. apply (f_equal (@rev ascii)) in E. rewrite !rev_app_distr in E. cbn [rev] in E.
  rewrite <- !app_assoc in E. cbn [app] in E. eapply digits_then; [| |exact Hc|exact Hc'|exact E];
    apply Forall_rev, all_digits_pad.
Qed.
Lemma t_name_not_q path prefix frame path' prefix' frame' :
  read_name path prefix "t" frame <> file_name path' prefix' "q" frame'.
Proof.
  rewrite read_name_stem, file_name_stem. intros E.
  assert (K : "t"%char = "q"%char); [|discriminate].
  exact (last_letter (stem path prefix) (stem path' prefix') "t"%char "q"%char frame frame' eq_refl eq_refl E).
Qed.
Lemma t_name_not_pkl path prefix frame path' prefix' frame' :
  read_name path prefix "t" frame <> file_name path' prefix' "pkl" frame'.
Proof.
  rewrite read_name_stem, file_name_stem. intros E.
  assert (K : "t"%char = "l"%char); [|discriminate].
  refine (last_letter (stem path prefix) (stem path' prefix' ++ lit "pk") "t"%char "l"%char frame frame' eq_refl eq_refl _).
  rewrite <- app_assoc. exact E.
Qed.

Section Frame.
Context {D : Type}.

(** ** fort.t never names the format forestclaw *)
Lemma t_file_ascii (s0 : @state D) sol (fs : @files D) path prefix frame :
  fs (read_name path prefix "t" frame) = Some (TextFile (t_file s0 sol)) ->
  exists f, read_t fs path prefix frame = Ok f /\ f_format f = Some (lit "ascii").
Proof.
  intros H. unfold read_t, open_text. rewrite H. cbn [bind]. unfold t_file.
  rewrite read_float_line by (apply no_nl_lit; reflexivity). cbn [bind].
  do 4 (rewrite read_int_line by (apply no_nl_lit; reflexivity); cbn [bind]).
  unfold int_line, fmt_5i.
  rewrite data_line_padded by (try lia; try apply no_space_str_int; try apply str_int_nonempty; apply no_nl_lit; reflexivity).
  cbv beta iota. eexists. split; [reflexivity|]. reflexivity.
Qed.

Lemma fwrite_t patched (fs fs' : @files D) path prefix frame sol :
  fwrite patched fs path prefix frame sol = Ok fs' ->
  exists s0, forall path' prefix' frame',
    fs' (read_name path' prefix' "t" frame') = fs (read_name path' prefix' "t" frame') \/
    fs' (read_name path' prefix' "t" frame') = Some (TextFile (t_file s0 (plain_sol sol))).
Proof.
  unfold fwrite. destruct (fo_states sol) as [|s0 r]; [discriminate|].
  destruct (all_fstates _ _) as [q|]; [|discriminate]. cbn [bind]. intros E. inversion E; subst; clear E.
  exists (fs_state s0). intros path' prefix' frame'.
  rewrite store_other by apply t_name_not_pkl. rewrite store_other by apply t_name_not_q.
  unfold store. destruct (text_eqb _ _); [right|left]; reflexivity.
Qed.
Lemma read_t_same (fs fs' : @files D) path prefix frame :
  fs' (read_name path prefix "t" frame) = fs (read_name path prefix "t" frame) ->
  read_t fs' path prefix frame = read_t fs path prefix frame.
Proof. intros H. unfold read_t, open_text. rewrite H. reflexivity. Qed.
Lemma fwrite_label patched (fs fs' : @files D) path prefix frame sol :
  no_forest_label fs -> fwrite patched fs path prefix frame sol = Ok fs' -> no_forest_label fs'.
Proof.
  intros H E. destruct (fwrite_t _ _ _ _ _ _ _ E) as (s0 & K). intros path' prefix' frame' f Hf.
  destruct (K path' prefix' frame') as [K'|K'].
  - rewrite (read_t_same fs fs') in Hf by exact K'. exact (H _ _ _ _ Hf).
  - destruct (t_file_ascii _ _ _ _ _ _ K') as (f' & E' & F'). rewrite E' in Hf. inversion Hf; subst. rewrite F'. discriminate.
Qed.

Lemma text_eqb_true a b : text_eqb a b = true <-> a = b.
Proof. unfold text_eqb. destruct (list_eq_dec ascii_dec a b); split; congruence. Qed.

Lemma act_ordinary p (a : @action D) : fst p = false -> no_forest_label (snd p) -> asks_forest a = false ->
  fst (act p a) = false /\ no_forest_label (snd (act p a)).
Proof.
  destruct p as [b fs]. cbn [fst snd]. intros -> N A. destruct a as [path prefix frame format sol|path prefix frame format];
    cbn [act fst snd asks_forest] in *.
  - unfold do_write. rewrite A. destruct (text_eqb format (lit "ascii")); [|split; [reflexivity|exact N]].
    destruct (fwrite false fs path prefix frame sol) as [fs'|] eqn:E; cbn [fst snd]; (split; [reflexivity|]); [|exact N].
    exact (fwrite_label _ _ _ _ _ _ _ N E).
  - split; [|exact N]. unfold do_read.
    set (fmt := match read_t fs path prefix frame with Ok f => _ | Err _ => _ end).
    assert (K : fmt <> Some (lit "forestclaw")).
    { unfold fmt. destruct (read_t fs path prefix frame) as [f|] eqn:E.
      - destruct (f_format f) as [w|] eqn:F; [rewrite <- F; exact (N _ _ _ _ E)|].
        destruct format as [w|]; [|discriminate]. intros K. inversion K; subst. rewrite text_eqb_refl in A. discriminate.
      - destruct format as [w|]; [|discriminate]. intros K. inversion K; subst. rewrite text_eqb_refl in A. discriminate. }
    destruct fmt as [w|]; [|reflexivity].
    destruct (text_eqb (firstn 6 w) _); [reflexivity|]. destruct (text_eqb w (lit "ascii")); [reflexivity|].
    destruct (text_eqb w (lit "forestclaw")) eqn:F; [apply text_eqb_true in F; congruence|].
    destruct (_ || _)%bool; reflexivity.
Qed.
Lemma process_ordinary (l : list (@action D)) p : fst p = false -> no_forest_label (snd p) ->
  forallb (fun a => negb (asks_forest a)) l = true ->
  fst (fold_left act l p) = false /\ no_forest_label (snd (fold_left act l p)).
Proof.
  revert p; induction l as [|a l IH]; intros p B N A; [split; assumption|]. cbn [forallb] in A.
  apply andb_true_iff in A. destruct A as [A1 A2]. apply negb_true_iff in A1. cbn [fold_left].
  destruct (act_ordinary p a B N A1) as [B' N']. apply IH; assumption.
Qed.
Lemma act_patched p (a : @action D) : fst p = true -> fst (act p a) = true.
Proof.
  destruct p as [b fs]. cbn [fst]. intros ->. destruct a as [path prefix frame format sol|path prefix frame format]; cbn [act fst snd].
  - unfold do_write. destruct (text_eqb format (lit "forestclaw")); [reflexivity|].
    destruct (text_eqb format (lit "ascii")); reflexivity.
  - unfold do_read. destruct (match read_t fs path prefix frame with Ok f => _ | Err _ => _ end) as [w|]; [|reflexivity].
    destruct (text_eqb (firstn 6 w) _); [reflexivity|]. destruct (text_eqb w (lit "ascii")); [reflexivity|].
    destruct (text_eqb w (lit "forestclaw")); [reflexivity|]. destruct (_ || _)%bool; reflexivity.
Qed.
Lemma process_patched (l : list (@action D)) p : fst p = true -> fst (fold_left act l p) = true.
Proof.
  revert p; induction l as [|a l IH]; intros p B; [exact B|]. cbn [fold_left]. apply IH, act_patched, B.
Qed.

(** ** in a process that has not used the format *)
Lemma fq_plain (ss : list (@fstate D)) : all_fstates (fq_part false) ss = all_states (q_part false) (map fs_state ss).
Proof.
  induction ss as [|s ss IH]; [reflexivity|]. cbn [all_fstates map all_states]. rewrite IH.
  unfold fq_part, write_header, q_part. cbn [bind]. destruct (write_array _ _ _); reflexivity.
Qed.
Lemma fwrite_plain (fs : @files D) path prefix frame sol :
  fwrite false fs path prefix frame sol = write fs path prefix frame false false (plain_sol sol).
Proof.
  unfold fwrite, write, plain_sol. cbn [so_states]. rewrite fq_plain.
  destruct (fo_states sol) as [|s0 r] eqn:E; [reflexivity|]. cbn [map].
  destruct (all_states _ _); [|reflexivity]. cbn [bind]. rewrite andb_false_r. reflexivity.
Qed.
Definition plain_result (r : result (@fsolution D)) : result (@solution D) :=
  match r with Ok s => Ok (plain_sol s) | Err e => Err e end.
Lemma fread_many (f : t_data) (data : option D) k : forall h,
  match read_many (fread_state false f data) k h with
  | Ok (l, h') => read_many (read_state f data) k h = Ok (map fs_state l, h') /\ Forall (fun s => fs_extra s = None) l
  | Err e => read_many (read_state f data) k h = Err e
  end.
Proof.
  induction k as [|k IH]; intros h; [split; [reflexivity|constructor]|]. cbn [read_many].
  unfold fread_state at 1, read_state at 1 3. unfold read_header.
  destruct (read_patch_header (Z.to_nat (f_num_dim f)) h) as [[p h1]|]; [|reflexivity]. cbn [bind].
  destruct (f_num_eqn f <? 0)%Z; [reflexivity|].
  destruct (read_array p (Z.to_nat (f_num_eqn f)) h1) as [[q h2]|]; [|reflexivity]. cbn [bind].
  specialize (IH h2). destruct (read_many (fread_state false f data) k h2) as [[l h3]|].
  - destruct IH as [-> F]. cbn [bind map]. split; [reflexivity|constructor; [reflexivity|exact F]].
  - rewrite IH. reflexivity.
Qed.
Lemma fread_plain (fs : @files D) path prefix frame :
  plain_result (fread false fs path prefix frame) = read fs path prefix frame false [] /\
  forall sol, fread false fs path prefix frame = Ok sol -> ordinary_patches sol.
Proof.
  unfold fread, read. destruct (match fs (read_name path prefix "pkl" frame) with Some _ => _ | None => _ end) as [data|];
    [|split; [reflexivity|discriminate]]. cbn [bind].
  destruct (read_t fs path prefix frame) as [f|]; [|split; [reflexivity|discriminate]]. cbn [bind].
  destruct (open_text fs _) as [h|]; [|split; [reflexivity|discriminate]]. cbn [bind].
  pose proof (fread_many f data (Z.to_nat (f_nstates f)) h) as K.
  destruct (read_many (fread_state false f data) _ h) as [[l h']|].
  - destruct K as [-> F]. cbn [bind]. destruct l as [|n0 r]; [split; [reflexivity|discriminate]|]. cbn [map].
    rewrite andb_false_r. split; [reflexivity|]. intros sol E. inversion E; subst. exact F.
  - rewrite K. split; [reflexivity|discriminate].
Qed.

(** ** round trip *)
Section Trip.
Variables (sol : @fsolution D) (t : Q) (num_eqn num_aux : nat) (data : option D).
Hypothesis W : writable (plain_sol sol) t num_eqn num_aux data.

Lemma in_plain s : In s (fo_states sol) -> In (fs_state s) (so_states (plain_sol sol)).
Proof. intros H. apply in_map, H. Qed.

Definition fq_text (s : @fstate D) : text :=
  (match fs_extra s with Some e => forest_header (s_patch (fs_state s)) e | None => [] end) ++
  write_loops (s_q (fs_state s)) (s_num_eqn (fs_state s)) (rev (map d_n (p_dims (s_patch (fs_state s))))) [].

Lemma fq_states : forest_patches sol -> all_fstates (fq_part true) (fo_states sol) = Ok (concat (map fq_text (fo_states sol))).
Proof.
  intros F. assert (K : forall ss, incl ss (fo_states sol) -> all_fstates (fq_part true) ss = Ok (concat (map fq_text ss))).
  { induction ss as [|s ss IH]; intros Hi; [reflexivity|]. cbn [all_fstates map concat].
    assert (Hs : In s (fo_states sol)) by (apply Hi; left; reflexivity).
    unfold fq_part at 1, fq_text at 1. unfold write_header.
    unfold forest_patches in F. rewrite Forall_forall in F. specialize (F s Hs).
    destruct (fs_extra s) as [e|]; [|congruence]. cbn [bind].
    rewrite write_array_ok by (apply (st_len13 _ _ _ _ _ W), in_plain, Hs). cbn [bind].
    rewrite IH by (intros x Hx; apply Hi; right; exact Hx). reflexivity. }
  apply K, incl_refl.
Qed.

(** what the reader finds in fort.t *)
Definition says (f : t_data) : Prop :=
  f_t f = reread t /\ f_num_eqn f = Z.of_nat num_eqn /\ f_nstates f = Z.of_nat (length (fo_states sol)) /\
  f_num_aux f = Z.of_nat num_aux /\ f_num_dim f = Z.of_nat (fo_num_dim sol).

Lemma fread_state_ok f d s rest : says f -> In s (fo_states sol) -> fs_extra s <> None ->
  exists s', fread_state true f d (lines (fq_text s ++ rest)) = Ok (s', lines rest) /\
    (reread_state t num_eqn num_aux d (fs_state s) (fs_state s') /\ fs_extra s' = fs_extra s).
Proof.
  intros (F1 & F2 & F3 & F4 & F5) H X. unfold fread_state. rewrite F1, F2, F4, F5. rewrite !Nat2Z.id.
  unfold fq_text. rewrite <- app_assoc. pose proof (in_plain s H) as HP.
  pose proof (nd_range _ _ _ _ _ W) as N. pose proof (st _ _ _ _ _ W _ HP) as S0. cbn [plain_sol so_num_dim] in N.
  destruct (fs_extra s) as [e|] eqn:E; [|congruence].
  unfold read_header. rewrite forest_header_ok;
    [|exact (st_len _ _ _ _ _ W _ HP)|lia|exact (st_valid _ _ _ _ _ W _ HP)]. cbn [bind].
  replace (Z.of_nat num_eqn <? 0)%Z with false by (symmetry; apply Z.ltb_ge; lia).
  rewrite (ws_num_eqn _ _ _ _ _ _ S0).
  destruct (read_array_ok (s_patch (fs_state s)) (reread_patch (s_patch (fs_state s))) (s_q (fs_state s)) num_eqn rest) as (q' & E' & Q').
  - apply (st_len13 _ _ _ _ _ W), HP.
  - apply W.
  - apply reread_dims_n. pose proof (st_len13 _ _ _ _ _ W _ HP). cbn [xyz length]. lia.
  - apply S0.
  - rewrite E'. cbn [bind]. eexists. split; [reflexivity|]. split; [|reflexivity]. exists q'. split; [reflexivity|exact Q'].
Qed.

Lemma fread_ok (fs : @files D) path prefix frame f :
  forest_patches sol -> says f -> read_t fs path prefix frame = Ok f ->
  fs (read_name path prefix "pkl" frame) = Some (PickleFile data) ->
  fs (read_name path prefix "q" frame) = Some (TextFile (concat (map fq_text (fo_states sol)))) ->
  exists sol', fread true fs path prefix frame = Ok sol' /\ forest_read_back sol sol'.
Proof.
  intros F SF T P Qf. unfold fread. rewrite P. cbn [bind]. rewrite T. cbn [bind]. unfold open_text. rewrite Qf. cbn [bind].
  destruct SF as (F1 & F2 & F3 & F4 & F5). rewrite F3, Nat2Z.id.
  unfold forest_patches in F. rewrite Forall_forall in F.
  destruct (read_many_exists (fread_state true f data) fq_text
      (fun s s' => reread_state t num_eqn num_aux data (fs_state s) (fs_state s') /\ fs_extra s' = fs_extra s)
      (fo_states sol) []) as (new & E & R).
  { intros s r H. apply fread_state_ok; [repeat split; assumption|exact H|apply F, H]. }
  rewrite app_nil_r in E. rewrite E. cbn [bind].
  destruct new as [|n0 r].
  { exfalso. inversion R as [K|]; subst. pose proof (w_some _ _ _ _ _ W) as WS. apply WS. unfold plain_sol. cbn [so_states].
    rewrite <- K. reflexivity. }
  eexists. split; [reflexivity|]. split.
  - split.
    + cbn [plain_sol so_num_dim fo_num_dim]. inversion R as [|s0 ? ss ? Hs0 _ K]; subst. destruct Hs0 as [(q' & -> & _) _].
      cbn [s_patch]. assert (I0 : In s0 (fo_states sol)) by (rewrite <- K; left; reflexivity).
      pose proof (st_len _ _ _ _ _ W _ (in_plain s0 I0)) as L. cbn [plain_sol so_num_dim] in L. rewrite <- L.
      unfold reread_patch. cbn [p_dims]. apply reread_dims_length.
      pose proof (st_len13 _ _ _ _ _ W _ (in_plain s0 I0)). cbn [xyz length]. lia.
    + cbn [plain_sol so_states fo_states].
      assert (K : forall ss new, incl ss (fo_states sol) -> Forall2 (fun s s' => reread_state t num_eqn num_aux data (fs_state s) (fs_state s') /\ fs_extra s' = fs_extra s) ss new ->
        Forall2 (state_read_back false) (map fs_state ss) (map fs_state new)).
      { intros ss new Hi R0. induction R0 as [|s s' ss new (H1 & H2) _ IH]; [constructor|]. cbn [map]. constructor.
        - apply (read_back_plain _ _ _ _ _ W); [apply in_plain, Hi; left; reflexivity|exact H1].
        - apply IH. intros x Hx. apply Hi. right. exact Hx. }
      apply K; [apply incl_refl|exact R].
  - cbn [fo_states]. clear -R. induction R as [|s s' ss new (H1 & H2) _ IH]; [reflexivity|]. cbn [map]. rewrite H2, IH. reflexivity.
Qed.

Lemma fwrite_forest (fs : @files D) path prefix frame : (0 <= frame)%Z -> forest_patches sol ->
  exists fs' s0, In s0 (fo_states sol) /\ fwrite true fs path prefix frame sol = Ok fs' /\
  fs' (read_name path prefix "t" frame) = Some (TextFile (t_file (fs_state s0) (plain_sol sol))) /\
  fs' (read_name path prefix "q" frame) = Some (TextFile (concat (map fq_text (fo_states sol)))) /\
  fs' (read_name path prefix "pkl" frame) = Some (PickleFile data) /\
  (forall name, ~ In name (map (fun k => read_name path prefix k frame) ["t"; "q"; "pkl"]%string) -> fs' name = fs name).
Proof.
  intros Hf F. unfold fwrite. rewrite (fq_states F). cbn [bind].
  assert (WS : fo_states sol <> []).
  { intros K. apply (w_some _ _ _ _ _ W). unfold plain_sol. cbn [so_states]. rewrite K. reflexivity. }
  destruct (fo_states sol) as [|s0 r] eqn:Es; [congruence|]. rewrite <- Es in *.
  assert (I0 : In s0 (fo_states sol)) by (rewrite Es; left; reflexivity).
  assert (NM : forall k, file_name path prefix k frame = read_name path prefix k frame).
  { intros k. rewrite read_name_stem, file_name_stem. reflexivity. }
  assert (NE : forall k1 k2, In k1 kinds -> In k2 kinds -> k1 <> k2 ->
     read_name path prefix k1 frame <> read_name path prefix k2 frame).
  { intros k1 k2 K1 K2 Hne E. rewrite <- !NM in E. apply file_name_inj in E; [tauto|assumption..]. }
  rewrite !NM. rewrite (ws_data _ _ _ _ _ _ (st _ _ _ _ _ W _ (in_plain s0 I0))).
  eexists. exists s0. split; [exact I0|]. split; [reflexivity|]. repeat split.
  - rewrite store_other by (apply NE; try discriminate; unfold kinds; cbn [In]; tauto).
    rewrite store_other by (apply NE; try discriminate; unfold kinds; cbn [In]; tauto). apply store_same.
  - rewrite store_other by (apply NE; try discriminate; unfold kinds; cbn [In]; tauto). apply store_same.
  - apply store_same.
  - intros name Hn. cbn [map In] in Hn. rewrite !store_other by (intros K; apply Hn; rewrite K; tauto). reflexivity.
Qed.

Lemma says_t_file s0 : In s0 (fo_states sol) -> forall (fs : @files D) path prefix frame,
  fs (read_name path prefix "t" frame) = Some (TextFile (t_file (fs_state s0) (plain_sol sol))) ->
  exists f, read_t fs path prefix frame = Ok f /\ says f /\ f_format f = Some (lit "ascii").
Proof.
  intros I0 fs path prefix frame H. pose proof (read_t_ok _ _ _ _ _ W fs path prefix frame _ (in_plain s0 I0) H) as E.
  eexists. split; [exact E|]. split; [|reflexivity]. unfold says, t_values. cbn. rewrite map_length. repeat split; reflexivity.
Qed.
Lemma says_forest_t (fs : @files D) path prefix frame :
  fs (read_name path prefix "t" frame) = Some (TextFile (forest_t sol t num_eqn num_aux)) ->
  exists f, read_t fs path prefix frame = Ok f /\ says f /\ f_format f = None.
Proof.
  intros H. unfold read_t, open_text. rewrite H. cbn [bind]. unfold forest_t.
  rewrite read_float_line by (apply no_nl_lit; reflexivity). cbn [bind].
  do 3 (rewrite read_int_line by (apply no_nl_lit; reflexivity); cbn [bind]).
  rewrite <- (app_nil_r (int_line (Z.of_nat (fo_num_dim sol)) _)).
  rewrite read_int_line by (apply no_nl_lit; reflexivity). cbn [bind].
  eexists. split; [reflexivity|]. split; [repeat split|reflexivity].
Qed.
End Trip.
End Frame.
