(** Gauge files: C118 (round trip), C119 (every gauge), C120 (reading into an object that is in use). *)
From Coq Require Import Ascii String.
From Verif Require Import Base FormatModel FormatSpec FormatProofs FormatProofs2 GFileModel GFileSpec GFileProofs.
Open Scope Q_scope.

Lemma text_eqb_refl n : text_eqb n n = true.
Proof. unfold text_eqb. destruct (list_eq_dec ascii_dec n n); congruence. Qed.
Lemma text_eqb_neq a b : a <> b -> text_eqb a b = false.
Proof. unfold text_eqb. destruct (list_eq_dec ascii_dec a b); congruence. Qed.

Section File.
Variable str_float : Q -> text.
Variable bytes : Type.
Variable decode64 decode32 : bytes -> list Q.
Notation write := (GFileModel.write str_float).
Notation read := (GFileModel.read bytes decode64 decode32).
Notation header_line := (GFileModel.header_line str_float).

Fixpoint row_lines (p : nat) (lev : list Z) (t : list Q) (obs : list (list Q)) : list text :=
  match lev, t, obs with
  | l :: lev', x :: t', v :: r => row_line p l x v :: row_lines p lev' t' r
  | _, _, _ => []
  end.
Lemma rows_text_ok p : forall obs lev t, length lev = length obs -> length t = length obs ->
  exists s, rows_text p lev t obs = (s, Done) /\ lines s = row_lines p lev t obs.
Proof.
  induction obs as [|v obs IH]; intros lev t Hl Ht.
  - exists []. destruct lev; [|discriminate]. split; reflexivity.
  - destruct lev as [|l lev]; [discriminate|]. destruct t as [|x t]; [discriminate|].
    destruct (IH lev t) as (s & E & L); [cbn in Hl; lia|cbn in Ht; lia|].
    exists (row_line p l x v ++ s). cbn [rows_text row_lines]. rewrite E. split; [reflexivity|]. rewrite lines_row, L. reflexivity.
Qed.
Fixpoint row_values (p : nat) (lev : list Z) (t : list Q) (obs : list (list Q)) : list (list Q) :=
  match lev, t, obs with
  | l :: lev', x :: t', v :: r => (level_value l :: reread_p 15 x :: map (reread_p p) v) :: row_values p lev' t' r
  | _, _, _ => []
  end.
Lemma row_values_length p nf : forall obs lev t, Forall (fun v => length v = nf) obs -> Forall (fun v => length v = S (S nf)) (row_values p lev t obs).
Proof.
  induction obs as [|v obs IH]; intros [|l lev] [|x t] H; cbn [row_values]; try constructor.
  - apply Forall_inv in H. cbn [length]. rewrite map_length, H. reflexivity.
  - apply IH. apply Forall_inv_tail in H. exact H.
Qed.
Lemma load_rows_ok p nf : forall obs lev t, Forall (fun v => length v = nf) obs ->
  load_rows (row_lines p lev t obs) = Some (row_values p lev t obs).
Proof.
  induction obs as [|v obs IH]; intros [|l lev] [|x t] H; cbn [row_lines row_values load_rows]; try reflexivity.
  rewrite row_line_no_comment, row_line_words. unfold row_words at 1.
  rewrite (IH lev t (Forall_inv_tail H)).
  unfold row_words. cbn [floats]. rewrite parse_level, parse_fmt_plus, (floats_map _ _ _ (parse_fmt_plus p)).
  match goal with |- context [forallb ?f ?l] => assert (F : forallb f l = true) end.
  { apply forallb_forall. intros u Hu. apply Nat.eqb_eq.
    pose proof (row_values_length p nf obs lev t (Forall_inv_tail H)) as K. rewrite Forall_forall in K. rewrite (K _ Hu).
    apply Forall_inv in H. cbn [length]. rewrite map_length, H. reflexivity. }
  rewrite F. reflexivity.
Qed.
Lemma as_rows_id rows n : rows <> [] -> Forall (fun v => length v = S (S n)) rows -> as_rows rows = rows.
Proof.
  intros N H. destruct rows as [|v [|w r]]; [congruence|reflexivity|]. unfold as_rows. rewrite (Forall_inv H). reflexivity.
Qed.
Lemma row_values_levels p : forall obs lev t, length lev = length obs -> length t = length obs ->
  map (fun v => trunc (nth 0 v 0)) (row_values p lev t obs) = lev /\
  map (fun v => nth 1 v 0) (row_values p lev t obs) = map (reread_p 15) t /\
  map (skipn 2) (row_values p lev t obs) = map (map (reread_p p)) obs.
Proof.
  induction obs as [|v obs IH]; intros [|l lev] [|x t] Hl Ht; try discriminate.
  - repeat split.
  - destruct (IH lev t) as (A & B & C); [cbn in Hl; lia|cbn in Ht; lia|].
    cbn [row_values map nth]. rewrite A, B, C, trunc_level. cbn [skipn]. repeat split.
Qed.

(** the first two lines *)
Lemma no_space_nl s : Forall (fun c => is_space c = false) s -> no_nl s.
Proof. exact (no_space_no_nl s). Qed.
Lemma header_words id x y nf : readable str_float x -> readable str_float y ->
  words (header_line id x y nf) =
  [lit "#"; lit "gauge_id="; str_int id; lit "location=("; str_float x; str_float y; lit ")"; lit "num_eqn="; str_int (Z.of_nat nf)].
Proof.
  intros (Nx & Sx & _) (Ny & Sy & _). unfold GFileModel.header_line.
  change (lit "# gauge_id= " ++ ?r) with (lit "#" ++ c_space :: lit "gauge_id=" ++ c_space :: r).
  assert (SK : forall s, words (c_space :: s) = words s) by reflexivity.
  assert (W : forall w r, no_space w -> w <> [] -> words (w ++ c_space :: r) = w :: words r).
  { intros w r H N. rewrite words_word; [|exact H|exact N|reflexivity]. rewrite SK. reflexivity. }
  assert (L : forall c r, Forall (fun c => is_space c = false) (c :: r) -> no_space (c :: r) /\ c :: r <> []) by (intros; split; [assumption|discriminate]).
  rewrite W; [|repeat constructor|discriminate]. f_equal.
  rewrite W; [|repeat constructor|discriminate]. f_equal.
  change (lit " location=( " ++ ?r) with (c_space :: lit "location=(" ++ c_space :: r).
  rewrite W; [|apply no_space_str_int|apply str_int_nonempty]. f_equal.
  rewrite W; [|repeat constructor|discriminate]. f_equal.
  change (lit " " ++ ?r) with (c_space :: r). rewrite W; [|exact Sx|exact Nx]. f_equal.
  change (lit " ) num_eqn= " ++ ?r) with (c_space :: lit ")" ++ c_space :: lit "num_eqn=" ++ c_space :: r).
  rewrite W; [|exact Sy|exact Ny]. f_equal.
  rewrite W; [|repeat constructor|discriminate]. f_equal.
  rewrite W; [|repeat constructor|discriminate]. f_equal.
  rewrite words_word; [reflexivity|apply no_space_str_int|apply str_int_nonempty|reflexivity].
Qed.
Lemma header_lines id x y nf r : readable str_float x -> readable str_float y ->
  lines (header_line id x y nf ++ columns_line ++ r) = header_line id x y nf :: columns_line :: lines r.
Proof.
  intros (Nx & Sx & _) (Ny & Sy & _).
  assert (K : forall s r, no_nl s -> lines ((s ++ [c_nl]) ++ r) = (s ++ [c_nl]) :: lines r).
  { intros s r' H. rewrite <- app_assoc. apply lines_line, H. }
  assert (LT : forall a s, (forall c, In c (lit a) -> c <> c_nl) -> no_nl s -> no_nl (lit a ++ s)).
  { intros a s H Hs. apply no_nl_app; [|exact Hs]. intro C. exact (H _ C eq_refl). }
  assert (E : header_line id x y nf = (lit "# gauge_id= " ++ str_int id ++ lit " location=( " ++ str_float x ++ lit " " ++ str_float y
     ++ lit " ) num_eqn= " ++ str_int (Z.of_nat nf)) ++ [c_nl]).
  { unfold GFileModel.header_line. rewrite <- !app_assoc. reflexivity. }
  rewrite E at 1. rewrite K.
  - rewrite <- E. reflexivity.
  - assert (G : forall a, no_nl (lit a) -> forall s, no_nl s -> no_nl (lit a ++ s)) by (intros; apply no_nl_app; assumption).
    assert (D : forall a, (forallb (fun c => negb (Ascii.eqb c c_nl)) (lit a)) = true -> no_nl (lit a)).
    { intros a F C. rewrite forallb_forall in F. specialize (F _ C). discriminate F. }
    apply G; [apply D; reflexivity|]. apply no_nl_app; [apply no_space_no_nl, no_space_str_int|].
    apply G; [apply D; reflexivity|]. apply no_nl_app; [apply no_space_nl, Sx|].
    apply G; [apply D; reflexivity|]. apply no_nl_app; [apply no_space_nl, Sy|].
    apply G; [apply D; reflexivity|]. apply no_space_no_nl, no_space_str_int.
Qed.
Lemma header_comment id x y nf : uncomment (header_line id x y nf) = [].
Proof. reflexivity. Qed.
Lemma header_read id x y nf x' y' : readable str_float x -> readable str_float y ->
  parse_float (str_float x) = Some x' -> parse_float (str_float y) = Some y' ->
  read_head (header_line id x y nf) = inl (mkHead id (Some [x'; y']) (Some (Z.of_nat nf))).
Proof.
  intros Rx Ry Ex Ey. unfold read_head. rewrite (header_words id x y nf Rx Ry).
  change (parse_int (word _ 2)) with (parse_int (str_int id)). rewrite parse_str_int.
  cbn [length Nat.ltb Nat.leb Nat.eqb]. cbn [skipn firstn floats word nth]. rewrite Ex, Ey, parse_str_int. reflexivity.
Qed.

(** What is in the file after writing a gauge with at least two coordinates, and what reading it gives, whatever the
    object held before. *)
Lemma written_and_read p g id x y rest lev ts nf obs (fs : files text) :
  complete g id (x :: y :: rest) lev ts nf obs -> readable str_float x -> readable str_float y ->
  exists fs' x' y', write p g fs = (fs', Done) /\ (forall n, n <> txt_name id -> fs' n = fs n) /\
  x' == x /\ y' == y /\
  forall (bin : files bytes) g0, read fs' bin id g0 =
    (mkGauge (Some id) (Some [x'; y']) (Some lev) (Some (map (reread_p 15) ts)) (Some (nf, map (map (reread_p p)) obs)) Stationary
       (Some [[reread_p 15 (hd 0 ts); x'; y']]), Done).
Proof.
  intros C Rx Ry.
  destruct Rx as (Nx & Sx & x' & Px & Ex). destruct Ry as (Ny & Sy & y' & Py & Ey).
  assert (Rx : readable str_float x) by (split; [exact Nx|split; [exact Sx|exists x'; split; assumption]]).
  assert (Ry : readable str_float y) by (split; [exact Ny|split; [exact Sy|exists y'; split; assumption]]).
  destruct (rows_text_ok p obs lev ts (c_nlev _ _ _ _ _ _ _ C) (c_nt _ _ _ _ _ _ _ C)) as (s & W & L).
  exists (set_file (txt_name id) (header_line id x y nf ++ columns_line ++ s) fs), x', y'.
  split.
  { unfold GFileModel.write. rewrite (c_id _ _ _ _ _ _ _ C), (c_loc _ _ _ _ _ _ _ C), (c_lev _ _ _ _ _ _ _ C), (c_t _ _ _ _ _ _ _ C), (c_q _ _ _ _ _ _ _ C).
    rewrite W. reflexivity. }
  split; [intros n Hn; unfold set_file; rewrite (text_eqb_neq _ _ Hn); reflexivity|].
  split; [exact Ex|]. split; [exact Ey|]. intros bin g0.
  unfold GFileModel.read. unfold set_file at 1. rewrite text_eqb_refl. rewrite (header_lines id x y nf s Rx Ry).
  rewrite (header_read id x y nf x' y' Rx Ry Px Py). rewrite L.
  pose proof (c_some _ _ _ _ _ _ _ C) as NE. pose proof (c_nlev _ _ _ _ _ _ _ C) as NL. pose proof (c_nt _ _ _ _ _ _ _ C) as NT.
  pose proof (c_fields _ _ _ _ _ _ _ C) as NF.
  destruct obs as [|v obs]; [congruence|]. destruct lev as [|l lev]; [discriminate|]. destruct ts as [|t0 ts]; [discriminate|].
  cbn [row_lines].
  assert (RF : read_format (columns_line :: row_line p l t0 v :: row_lines p lev ts obs) = (Stationary, Ascii_data)).
  { unfold read_format. change (contains (lit "lagrangian") (lower_case (nth 0 (columns_line :: row_line p l t0 v :: row_lines p lev ts obs) []))) with false.
    change (contains (lit "stationary") (lower_case (nth 0 (columns_line :: row_line p l t0 v :: row_lines p lev ts obs) []))) with false.
    cbn iota. cbn [nth].
    change (lit "binary32") with ("b"%char :: lit "inary32"). change (lit "binary") with ("b"%char :: lit "inary").
    rewrite !row_line_not_binary. destruct (row_line p l t0 v) eqn:K; [|reflexivity].
    exfalso. destruct (row_line_split p l t0 v) as (b & E & _). rewrite E in K. destruct b; discriminate K. }
  rewrite RF. cbn [h_id]. rewrite Z.eqb_refl. cbn [negb].
  assert (LR : load_rows (header_line id x y nf :: columns_line :: row_line p l t0 v :: row_lines p lev ts obs)
             = Some (row_values p (l :: lev) (t0 :: ts) (v :: obs))).
  { change (load_rows (header_line id x y nf :: columns_line :: ?r)) with (load_rows r).
    exact (load_rows_ok p nf (v :: obs) (l :: lev) (t0 :: ts) NF). }
  rewrite LR.
  pose proof (row_values_length p nf (v :: obs) (l :: lev) (t0 :: ts) NF) as RL.
  rewrite (as_rows_id _ nf); [|discriminate|exact RL].
  assert (LN : length (nth 0 (row_values p (l :: lev) (t0 :: ts) (v :: obs)) []) = S (S nf)) by (apply Forall_inv in RL; exact RL).
  rewrite LN. destruct (row_values_levels p (v :: obs) (l :: lev) (t0 :: ts) NL NT) as (V1 & V2 & V3).
  unfold store. cbn [h_neqn]. rewrite Z.eqb_refl, V1, V2, V3. unfold particle_path, set_type, set_head.
  cbn [g_id g_location g_type h_id h_location map hd set_path]. reflexivity.
Qed.

(** C118: a gauge in two dimensions with at least one observation comes back: number, place and levels exactly, times to
    sixteen digits and values to the digits of the format, whatever the object it is read into held. No other file is
    touched, and writing what was read gives the same file. *)
Theorem C118_round_trip :
  forall p g id x y lev ts nf obs (fs : files text),
  complete g id [x; y] lev ts nf obs -> readable str_float x -> readable str_float y ->
  exists fs', write p g fs = (fs', Done) /\ (forall n, n <> txt_name id -> fs' n = fs n) /\
  forall (bin : files bytes) g0, exists g', read fs' bin id g0 = (g', Done) /\
    g_id g' = Some id /\ (exists x' y', g_location g' = Some [x'; y'] /\ x' == x /\ y' == y) /\
    g_level g' = Some lev /\ g_type g' = Stationary /\
    (exists ts', g_t g' = Some ts' /\ Forall2 (accurate 15) ts ts') /\
    (exists obs', g_q g' = Some (nf, obs') /\ Forall2 (Forall2 (accurate p)) obs obs') /\
    ((forall a b, a == b -> str_float a = str_float b) -> forall fs1, fst (write p g' fs1) (txt_name id) = fs' (txt_name id)).
Proof.
  intros p g id x y lev ts nf obs fs C Rx Ry.
  destruct (written_and_read p g id x y [] lev ts nf obs fs C Rx Ry) as (fs' & x' & y' & W & O & Ex & Ey & R).
  exists fs'. split; [exact W|]. split; [exact O|]. intros bin g0. eexists. split; [apply R|]. cbn [g_id g_location g_level g_type g_t g_q].
  split; [reflexivity|]. split; [exists x', y'; repeat split; assumption|]. split; [reflexivity|]. split; [reflexivity|].
  assert (F2 : forall q (l : list Q), Forall2 (accurate q) l (map (reread_p q) l)).
  { intros q. induction l as [|a l IH]; cbn [map]; constructor; [apply reread_p_accurate|exact IH]. }
  split; [eexists; split; [reflexivity|apply F2]|]. split.
  { eexists; split; [reflexivity|]. induction obs as [|v r IH]; cbn [map]; [constructor|]. constructor; [apply F2|].
    clear -F2. induction r as [|w r IH]; cbn [map]; constructor; [apply F2|exact IH]. }
  intros Hs fs1. unfold GFileModel.write in *. cbn [g_id g_location g_level g_t g_q].
  rewrite (c_id _ _ _ _ _ _ _ C), (c_loc _ _ _ _ _ _ _ C), (c_lev _ _ _ _ _ _ _ C), (c_t _ _ _ _ _ _ _ C), (c_q _ _ _ _ _ _ _ C) in W.
  assert (RT : forall obs lev ts, rows_text p lev (map (reread_p 15) ts) (map (map (reread_p p)) obs) = rows_text p lev ts obs).
  { clear. induction obs as [|v obs IH]; intros [|l lev] [|t ts]; cbn [map rows_text]; try reflexivity. rewrite IH.
    assert (RE : row_line p l (reread_p 15 t) (map (reread_p p) v) = row_line p l t v).
    { unfold row_line. rewrite fmt_plus_reread, map_map. do 5 f_equal. f_equal. apply map_ext. intro. apply fmt_plus_reread. }
    rewrite RE. reflexivity. }
  rewrite RT. destruct (rows_text p lev ts obs) as [s o]. apply (f_equal fst) in W. cbn [fst] in W |- *. rewrite <- W.
  unfold set_file. rewrite !text_eqb_refl. f_equal. f_equal. unfold GFileModel.header_line.
  rewrite (Hs x' x Ex), (Hs y' y Ey). reflexivity.
Qed.

(** C119: what happens to the other gauges: in three dimensions the third coordinate is lost, a Lagrangian gauge comes
    back as a stationary one at its first place; a gauge in one dimension is not written, and a file that was there is
    emptied; a gauge without observations is not read. *)
Theorem C119_more_dimensions :
  forall p g id x y z rest lev ts nf obs (fs : files text),
  complete g id (x :: y :: z :: rest) lev ts nf obs -> readable str_float x -> readable str_float y ->
  exists fs', write p g fs = (fs', Done) /\ forall (bin : files bytes) g0, exists g' x' y', read fs' bin id g0 = (g', Done) /\
    g_location g' = Some [x'; y'].
Proof.
  intros p g id x y z rest lev ts nf obs fs C Rx Ry.
  destruct (written_and_read p g id x y (z :: rest) lev ts nf obs fs C Rx Ry) as (fs' & x' & y' & W & O & Ex & Ey & R).
  exists fs'. split; [exact W|]. intros bin g0. do 3 eexists. split; [apply R|]. reflexivity.
Qed.
Theorem C119_lagrangian :
  forall p g id x y lev ts nf obs (fs : files text), g_type g = Lagrangian ->
  complete g id [x; y] lev ts nf obs -> readable str_float x -> readable str_float y ->
  exists fs', write p g fs = (fs', Done) /\ forall (bin : files bytes) g0, exists g', read fs' bin id g0 = (g', Done) /\
    g_type g' = Stationary.
Proof.
  intros p g id x y lev ts nf obs fs _ C Rx Ry.
  destruct (written_and_read p g id x y [] lev ts nf obs fs C Rx Ry) as (fs' & x' & y' & W & O & Ex & Ey & R).
  exists fs'. split; [exact W|]. intros bin g0. eexists. split; [apply R|]. reflexivity.
Qed.
Theorem C119_one_dimension :
  forall p g id x lev ts nf obs (fs : files text), complete g id [x] lev ts nf obs ->
  snd (write p g fs) = Raised IndexErr /\ fst (write p g fs) (txt_name id) = Some [] /\
  forall (bin : files bytes) g0, read (fst (write p g fs)) bin id g0 = (g0, Raised IndexErr).
Proof.
  intros p g id x lev ts nf obs fs C. unfold GFileModel.write.
  rewrite (c_id _ _ _ _ _ _ _ C), (c_loc _ _ _ _ _ _ _ C), (c_lev _ _ _ _ _ _ _ C), (c_t _ _ _ _ _ _ _ C), (c_q _ _ _ _ _ _ _ C).
  cbn [fst snd]. split; [reflexivity|]. unfold GFileModel.read, set_file. rewrite text_eqb_refl. split; [reflexivity|]. reflexivity.
Qed.

(** C120: reading from a file that has the gauge's data (ASCII or binary) gives the same number, place, type, levels,
    times and values whatever the object held before; the particle path is that of the file for gauges in two
    dimensions and is left as it was for others. *)
Definition same_data (a b : gauge) : Prop :=
  g_id a = g_id b /\ g_location a = g_location b /\ g_type a = g_type b /\ g_level a = g_level b /\ g_t a = g_t b /\ g_q a = g_q b.
Theorem C120_reading_replaces_partial :
  forall (txt : files text) (bin : files bytes) id g1 g2 g1', read txt bin id g1 = (g1', Done) ->
  exists g2', read txt bin id g2 = (g2', Done) /\ same_data g1' g2' /\
  (g_path g2' = g_path g1' \/ (g_path g2' = g_path g2 /\ g_path g1' = g_path g1 /\ forall x y, g_location g1' <> Some [x; y])).
Proof.
  intros txt bin id g1 g2 g1' H. unfold GFileModel.read in *.
  destruct (txt (txt_name id)) as [s|]; [|discriminate]. destruct (lines s) as [|first rest] eqn:L; [discriminate|].
  destruct (read_head first) as [h|[[h|] e]] eqn:RH; try discriminate.
  assert (HL : (exists loc m, h = mkHead (h_id h) (Some loc) (Some m)) \/ h_neqn h = None).
  { clear -RH. unfold read_head in RH. destruct (length (words first) <? 3)%nat; [discriminate|].
    destruct (parse_int (word (words first) 2)) as [i|]; [|discriminate].
    repeat match type of RH with context [Nat.eqb ?a ?b] => destruct (Nat.eqb a b) end;
      repeat match type of RH with context [floats ?l] => destruct (floats l) as [xs|]; [|discriminate]
                            | context [parse_int ?l] => destruct (parse_int l) as [m|]; [|discriminate] end;
      apply (f_equal (fun z => match z with inl u => u | inr _ => h end)) in RH; cbn beta iota in RH; rewrite <- RH;
      try (left; do 2 eexists; reflexivity); right; reflexivity. }
  destruct (read_format rest) as [ty fmt]. destruct (h_id h =? id)%Z; cbn [negb] in *; [|discriminate].
  assert (ST : forall ncol rows, store (h_neqn h) ncol rows (set_type ty (set_head h g1)) = (g1', Done) ->
    exists g2', store (h_neqn h) ncol rows (set_type ty (set_head h g2)) = (g2', Done) /\ same_data g1' g2' /\
    (g_path g2' = g_path g1' \/ (g_path g2' = g_path g2 /\ g_path g1' = g_path g1 /\ forall x y, g_location g1' <> Some [x; y]))).
  { clear H. intros ncol rows H. unfold store in *. destruct ncol as [|[|nf]]; try discriminate.
    destruct HL as [(loc & m & E)|E]; [|rewrite E in H; discriminate].
    rewrite E in *. cbn [h_neqn] in *. destruct (m =? Z.of_nat nf)%Z; [|discriminate].
    unfold particle_path in *. unfold set_type, set_head in *. cbn [g_location h_location g_type g_id h_id] in *.
    set (ts := map (fun v => nth 1 v 0) rows) in *. set (obs := map (skipn 2) rows) in *. set (lv := map (fun v => trunc (nth 0 v 0)) rows) in *.
    assert (OTH : (forall x y, loc <> [x; y]) -> 
      (mkGauge (Some (h_id h)) (Some loc) (Some lv) (Some ts) (Some (nf, obs)) ty (g_path g1), Done) = (g1', Done) ->
      exists g2', (mkGauge (Some (h_id h)) (Some loc) (Some lv) (Some ts) (Some (nf, obs)) ty (g_path g2), Done) = (g2', Done) /\ same_data g1' g2' /\
      (g_path g2' = g_path g1' \/ (g_path g2' = g_path g2 /\ g_path g1' = g_path g1 /\ forall x y, g_location g1' <> Some [x; y]))).
    { intros N K. apply (f_equal fst) in K. cbn [fst] in K. subst g1'. eexists. split; [reflexivity|]. split; [repeat split|].
      right. split; [reflexivity|]. split; [reflexivity|]. intros x y F. cbn [g_location] in F.
      apply (N x y). congruence. }
    destruct loc as [|x [|y [|z r]]]; try (apply OTH; [intros; discriminate|exact H]).
    destruct ty.
    - destruct ts as [|t0 ts']; [discriminate|]. apply (f_equal fst) in H. cbn [fst] in H. subst g1'. eexists. split; [reflexivity|].
      split; [repeat split|left; reflexivity].
    - destruct (3 <=? nf)%nat; [|discriminate]. apply (f_equal fst) in H. cbn [fst] in H. subst g1'. eexists. split; [reflexivity|].
      split; [repeat split|left; reflexivity]. }
  destruct fmt.
  - destruct (load_rows (first :: rest)) as [rows|]; [|discriminate]. apply ST, H.
  - destruct (bin (bin_name id)) as [b|]; [|discriminate]. destruct (h_neqn h) as [m|] eqn:E; [|discriminate].
    destruct (m <? 0)%Z; [discriminate|]. destruct (_ =? 0)%nat; [|discriminate]. apply ST, H.
  - destruct (bin (bin_name id)) as [b|]; [|discriminate]. destruct (h_neqn h) as [m|] eqn:E; [|discriminate].
    destruct (m <? 0)%Z; [discriminate|]. destruct (_ =? 0)%nat; [|discriminate]. apply ST, H.
Qed.
End File.
Print Assumptions C118_round_trip.
Print Assumptions C119_more_dimensions.
Print Assumptions C119_lagrangian.
Print Assumptions C119_one_dimension.
Print Assumptions C120_reading_replaces_partial.

(** ** Concrete gauges *)
Definition dec (x : Q) : text := fmt_e x.
Definition no_txt : files text := fun _ => None.
Definition no_bin : files unit := fun _ => None.
Notation rd := (read unit (fun _ => []) (fun _ => [])).
Definition ex_gauge (loc : list Q) (ty : gtype) : gauge :=
  mkGauge (Some 7%Z) (Some loc) (Some [1%Z; 12%Z]) (Some [0; 1 # 3]) (Some (2%nat, [[1; - (1 # 7)]; [2; 1000]])) ty None.
Lemma ex_complete loc ty : complete (ex_gauge loc ty) 7 loc [1%Z; 12%Z] [0; 1 # 3] 2 [[1; - (1 # 7)]; [2; 1000]].
Proof. constructor; try reflexivity; try lia; try discriminate. repeat constructor. Qed.
Lemma quarter_readable : readable dec (1 # 4) /\ readable dec (- (1 # 2)).
Proof.
  split; (split; [discriminate|split; [vm_compute; repeat constructor|]]); eexists; (split; [vm_compute; reflexivity|reflexivity]).
Qed.
(** the hypotheses of C118 and C119, and the file *)
Example C118_example :
  complete (ex_gauge [1 # 4; - (1 # 2)] Stationary) 7 [1 # 4; - (1 # 2)] [1%Z; 12%Z] [0; 1 # 3] 2 [[1; - (1 # 7)]; [2; 1000]] /\
  readable dec (1 # 4) /\ readable dec (- (1 # 2)) /\
  fst (write dec 3 (ex_gauge [1 # 4; - (1 # 2)] Stationary) no_txt) (lit "gauge00007.txt") = Some
   (lit "# gauge_id= 7 location=( 2.50000000e-01 -5.00000000e-01 ) num_eqn= 2" ++ [c_nl] ++
    lit "# Columns: level time q(1 ... num_eqn)" ++ [c_nl] ++
    lit "01 +0.000000000000000e+00 +1.000e+00 -1.429e-01" ++ [c_nl] ++
    lit "12 +3.333333333333333e-01 +2.000e+00 +1.000e+03" ++ [c_nl]).
Proof.
  split; [apply ex_complete|]. split; [apply quarter_readable|]. split; [apply quarter_readable|]. vm_compute. reflexivity.
Qed.

(** C119 is false of gauges in one and three dimensions, of Lagrangian gauges and of gauges without observations *)
Theorem C119_every_gauge_refuted :
  (exists g, complete g 7 [1 # 4] [1%Z; 12%Z] [0; 1 # 3] 2 [[1; - (1 # 7)]; [2; 1000]] /\ snd (write dec 15 g no_txt) = Raised IndexErr) /\
  (exists g z fs' g', g_location g = Some [1 # 4; - (1 # 2); z] /\ write dec 15 g no_txt = (fs', Done) /\
     rd fs' no_bin 7 new_gauge = (g', Done) /\ exists x y, g_location g' = Some [x; y]) /\
  (exists g fs' g', g_type g = Lagrangian /\ is_valid g = true /\ write dec 15 g no_txt = (fs', Done) /\
     rd fs' no_bin 7 new_gauge = (g', Done) /\ g_type g' = Stationary) /\
  (exists g fs' g', is_valid g = true /\ write dec 15 g no_txt = (fs', Done) /\
     rd fs' no_bin 7 new_gauge = (g', Warned) /\ is_valid g' = false).
Proof.
  destruct quarter_readable as (R1 & R2). split; [|split; [|split]].
  - exists (ex_gauge [1 # 4] Stationary). split; [apply ex_complete|].
    exact (proj1 (C119_one_dimension dec unit (fun _ => []) (fun _ => []) 15 _ _ _ _ _ _ _ no_txt (ex_complete [1 # 4] Stationary))).
  - destruct (C119_more_dimensions dec unit (fun _ => []) (fun _ => []) 15 _ _ _ _ 3 [] _ _ _ _ no_txt (ex_complete [1 # 4; - (1 # 2); 3] Stationary) R1 R2)
      as (fs' & W & R). destruct (R no_bin new_gauge) as (g' & x & y & E & L).
    exists (ex_gauge [1 # 4; - (1 # 2); 3] Stationary), 3, fs', g'. split; [reflexivity|]. split; [exact W|]. split; [exact E|]. exists x, y. exact L.
  - destruct (C119_lagrangian dec unit (fun _ => []) (fun _ => []) 15 (ex_gauge [1 # 4; - (1 # 2)] Lagrangian) _ _ _ _ _ _ _ no_txt eq_refl (ex_complete [1 # 4; - (1 # 2)] Lagrangian) R1 R2)
      as (fs' & W & R). destruct (R no_bin new_gauge) as (g' & E & L).
    exists (ex_gauge [1 # 4; - (1 # 2)] Lagrangian), fs', g'. split; [reflexivity|]. split; [reflexivity|]. split; [exact W|]. split; [exact E|exact L].
  - exists (mkGauge (Some 7%Z) (Some [1 # 4; - (1 # 2)]) (Some []) (Some []) (Some (2%nat, [])) Stationary None).
    do 2 eexists. split; [reflexivity|]. split; [reflexivity|]. split; [vm_compute; reflexivity|reflexivity].
Qed.

(** C120 is false: the header of gauge 7 with the data of gauge 3 when the data file is missing; the particle path of the
    former gauge when a gauge in one dimension is read. *)
Definition header_only : text := lit "# gauge_id= 7 location=( 0.25 0.5 ) num_eqn= 1" ++ [c_nl] ++ lit "# stationary gauge" ++ [c_nl] ++ lit "# file format binary" ++ [c_nl].
Definition one_dim_file : text := lit "# gauge_id= 7 location=( 0.25 ) num_eqn= 1" ++ [c_nl] ++ lit "# level t q" ++ [c_nl] ++ lit "01 2 3" ++ [c_nl].
Definition gauge_3 : gauge := mkGauge (Some 3%Z) (Some [1; 2]) (Some [1%Z]) (Some [5]) (Some (1%nat, [[6]])) Stationary (Some [[5; 1; 2]]).
Theorem C120_reading_replaces_refuted :
  (exists g', rd (set_file (txt_name 7) header_only no_txt) no_bin 7 gauge_3 = (g', Warned) /\
     g_id g' = Some 7%Z /\ g_t g' = g_t gauge_3 /\ g_q g' = g_q gauge_3 /\ is_valid g' = true) /\
  (exists g', rd (set_file (txt_name 7) one_dim_file no_txt) no_bin 7 gauge_3 = (g', Done) /\
     g_id g' = Some 7%Z /\ g_path g' = g_path gauge_3).
Proof.
  split; eexists; (split; [vm_compute; reflexivity|]); repeat split.
Qed.
(** the hypothesis of C120 *)
Example C120_example : exists g', rd (set_file (txt_name 7) one_dim_file no_txt) no_bin 7 new_gauge = (g', Done) /\ g_level g' = Some [1%Z] /\ is_valid g' = true.
Proof. eexists. split; [vm_compute; reflexivity|]. split; reflexivity. Qed.
Print Assumptions C119_every_gauge_refuted.
Print Assumptions C120_reading_replaces_refuted.
