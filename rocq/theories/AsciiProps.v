(** Properties of the ASCII output. *)
From Coq Require Import Ascii String.
From Verif Require Import Base FormatModel FormatSpec AsciiModel AsciiSpec FormatProofs FormatProofs2 AsciiProofs AsciiProofs2 AsciiProofs3.
Open Scope Q_scope.

(** *** C41: printed numbers are accurate *)

(** Every number is printed as one word that reads back within half a unit in the ninth digit; printing the
    number read gives the same text again. *)
Theorem C41_printed_numbers_are_accurate (x : Q) :
  exists y, words (fmt_18_8e x) = [fmt_e x] /\ parse_float (fmt_e x) = Some y /\
    nine_digits x y /\ fmt_18_8e y = fmt_18_8e x.
Proof.
  exists (reread x). repeat split.
  - rewrite <- (app_nil_r (fmt_18_8e x)). unfold fmt_18_8e.
    rewrite words_pad by (try apply no_space_fmt_e; try apply fmt_e_nonempty; exact I). reflexivity.
  - apply parse_fmt_e.
  - apply reread_accurate.
  - apply fmt_reread.
Qed.

(** Numbers printed side by side stay apart: a row of finite double precision numbers splits into exactly
    these numbers. *)
Theorem C41_rows_split_into_their_numbers (xs : list Q) :
  Forall double_range xs ->
  words (concat (map fmt_18_8e xs) ++ [c_nl]) = map fmt_e xs.
Proof. apply words_row. Qed.

(** Integers are exact. *)
Theorem C41_printed_integers_are_exact (m : Z) :
  exists w, words (fmt_5i m) = [w] /\ parse_int w = Some m.
Proof.
  exists (str_int m). split; [|apply parse_str_int].
  rewrite <- (app_nil_r (fmt_5i m)). unfold fmt_5i.
  rewrite words_pad by (try apply no_space_str_int; try apply str_int_nonempty; exact I). reflexivity.
Qed.

Example C41_case : fmt_18_8e (2 # 3) = lit "    6.66666667e-01" /\
  fmt_18_8e (-123456789012 # 1) = lit "   -1.23456789e+11" /\
  fmt_18_8e (9999999999 # 10000000000) = lit "    1.00000000e+00" /\
  fmt_18_8e (1 # 10 ^ 120) = lit "   1.00000000e-120" /\
  fmt_18_8e 0 = lit "    0.00000000e+00" /\
  fmt_5i (-12) = lit "  -12".
Proof. repeat split; vm_compute; reflexivity. Qed.
Example C41_row_case : Forall double_range [2 # 3; -(5 # 1); 0].
Proof.
  constructor; [right; split; vm_compute; congruence|]. constructor; [right; split; vm_compute; congruence|].
  constructor; [left; reflexivity|constructor].
Qed.

(** *** C42: file names *)

(** Two files of the same series have the same name only if they are the same file: same kind (time, q, aux,
    pickle) and same frame. *)
Theorem C42_file_names_are_unique (path prefix : text) (kind1 kind2 : string) (frame1 frame2 : Z) :
  In kind1 ["t"; "q"; "a"; "pkl"]%string -> In kind2 ["t"; "q"; "a"; "pkl"]%string ->
  (0 <= frame1)%Z -> (0 <= frame2)%Z ->
  file_name path prefix kind1 frame1 = file_name path prefix kind2 frame2 -> kind1 = kind2 /\ frame1 = frame2.
Proof. apply file_name_inj. Qed.

(** Below frame 10000 the names sort like the frames. *)
Theorem C42_file_names_sort_by_frame (path prefix : text) (kind : string) (frame1 frame2 : Z) :
  (0 <= frame1 < 10000)%Z -> (0 <= frame2 < 10000)%Z ->
  (before (file_name path prefix kind frame1) (file_name path prefix kind frame2) <-> (frame1 < frame2)%Z).
Proof. apply names_before. Qed.

(** The reader looks for the names the writer uses. *)
Theorem C42_reader_and_writer_agree (path prefix : text) (kind : string) (frame : Z) :
  read_name path prefix kind frame = file_name path prefix kind frame.
Proof. rewrite read_name_stem, file_name_stem. reflexivity. Qed.

Example C42_case : file_name (lit "./_output") (lit "fort") "q" 12 = lit "./_output/fort.q0012" /\
  file_name (lit "out/") (lit "claw_p") "pkl" 123456 = lit "out/claw_p.pkl123456".
Proof. split; vm_compute; reflexivity. Qed.
(** The bound is needed: frame 10000 sorts before frame 9999. *)
Example C42_bound : before (file_name (lit ".") (lit "fort") "q" 10000) (file_name (lit ".") (lit "fort") "q" 9999).
Proof. vm_compute. repeat first [left; reflexivity | right; split; [reflexivity|]]. Qed.

(** *** C40: the round trip *)

Section Files.
Context {D : Type}.

(** the format in the header wins *)
Lemma dispatch (expand : text -> text) (fs : @files D) path prefix frame fmt read_aux prior f :
  read_t fs path prefix frame = Ok f -> f_format f = Some (lit "ascii") -> expand path = path ->
  solution_read expand fs path prefix frame fmt read_aux prior = read fs path prefix frame read_aux prior.
Proof.
  intros H1 H2 H3. unfold solution_read. rewrite H1, H2.
  change (text_eqb (firstn 6 (lit "ascii")) (lit "binary")) with false.
  change (text_eqb (lit "ascii") (lit "ascii")) with true. cbv iota. rewrite H3. reflexivity.
Qed.

(** Writing a supported solution succeeds, changes only the files of this frame, and reading the frame with a
    new Solution object gives the solution back (auxiliary arrays if they were written and asked for),
    whatever format the reader was told.  If the auxiliary arrays are not written, no older auxiliary file
    may lie around. *)
Theorem C40_ascii_round_trip (expand : text -> text) (fs : @files D) (path prefix : text) (frame : Z)
    (fmt : option text) (write_aux read_aux : bool) (sol : solution) t num_eqn num_aux data :
  (0 <= frame)%Z -> expand path = path -> writable sol t num_eqn num_aux data ->
  (write_aux = false -> fs (file_name path prefix "a" frame) = None /\ fs (file_name path prefix "a" 0) = None) ->
  exists fs' sol',
    solution_write expand fs path prefix frame write_aux false sol = Ok fs' /\
    solution_read expand fs' path prefix frame fmt read_aux [] = Ok sol' /\
    read_back ((0 <? num_aux)%nat && write_aux && read_aux) sol sol' /\
    (forall name, ~ In name [file_name path prefix "t" frame; file_name path prefix "q" frame;
                             file_name path prefix "a" frame; file_name path prefix "pkl" frame] ->
                  fs' name = fs name).
Proof.
  intros Hf He W Hold.
  destruct (write_ok sol t num_eqn num_aux data W fs path prefix frame write_aux Hf)
    as (fs' & s0 & H0 & E & Ht & Hq & Hp & Ha & Hu).
  rewrite <- !(C42_reader_and_writer_agree path prefix) in Ht, Hq, Hp, Ha.
  pose proof (read_t_ok sol t num_eqn num_aux data W fs' path prefix frame s0 H0 Ht) as RT.
  destruct (read_ok sol t num_eqn num_aux data W fs' path prefix frame read_aux s0 H0 Hp Ht Hq) as (R1 & R2).
  exists fs'. unfold solution_write. rewrite He.
  assert (DS : forall prior, solution_read expand fs' path prefix frame fmt read_aux prior = read fs' path prefix frame read_aux prior).
  { intros prior. apply (dispatch expand fs' path prefix frame fmt read_aux prior _ RT); [reflexivity|exact He]. }
  destruct ((0 <? num_aux)%nat && write_aux && read_aux)%bool eqn:C.
  - apply andb_true_iff in C. destruct C as [C Cr]. rewrite C in Ha. apply andb_true_iff in C. destruct C as [Cn Cw].
    apply Nat.ltb_lt in Cn. destruct (R2 Cn Cr (or_introl Ha)) as (new & En & F).
    exists (mkSolution new (so_num_dim sol)). split; [exact E|]. split; [rewrite DS; exact En|]. split; [|exact Hu].
    constructor; [reflexivity|]. cbn [so_states].
    apply (Forall2_sub (reread_state_aux t num_eqn num_aux data)); [|exact F].
    intros s s' Hs Hr. apply (read_back_aux sol t num_eqn num_aux data W s s' Hs Hr).
  - assert (K : ((0 <? num_aux)%nat && read_aux)%bool = false \/
                (fs' (read_name path prefix "a" frame) = None /\ fs' (read_name path prefix "a" 0) = None)).
    { destruct ((0 <? num_aux)%nat && read_aux)%bool eqn:C2; [right|left; reflexivity].
      apply andb_true_iff in C2. destruct C2 as [Cn Cr]. rewrite Cn, Cr in *.
      destruct write_aux; [discriminate C|]. cbn [andb] in Ha. rewrite !C42_reader_and_writer_agree in *.
      destruct (Hold eq_refl) as [O1 O2]. split; [rewrite Ha; exact O1|].
      destruct (Z.eq_dec frame 0) as [->|Hne]; [rewrite Ha; exact O2|].
      rewrite Hu; [exact O2|]. intros Hin. apply in_map_iff in Hin. destruct Hin as (k & Ek & Hk).
      apply file_name_inj in Ek; [|exact Hk|right; right; left; reflexivity|exact Hf|lia]. lia. }
    destruct (R1 K) as (new & En & F).
    exists (mkSolution new (so_num_dim sol)). split; [exact E|]. split; [rewrite DS; exact En|]. split; [|exact Hu].
    constructor; [reflexivity|]. cbn [so_states].
    apply (Forall2_sub (reread_state t num_eqn num_aux data)); [|exact F].
    intros s s' Hs Hr. apply (read_back_plain sol t num_eqn num_aux data W s s' Hs Hr).
Qed.

(** The auxiliary arrays may be written with frame 0 only: a later frame of the same patches gets them from
    there. *)
Theorem C40_auxiliary_arrays_of_the_first_frame (expand : text -> text) (fs : @files D) (path prefix : text) (frame : Z)
    (fmt : option text) (sol0 sol : solution) t0 t num_eqn num_aux data :
  (0 < frame)%Z -> expand path = path -> (0 < num_aux)%nat ->
  writable sol0 t0 num_eqn num_aux data -> writable sol t num_eqn num_aux data ->
  Forall2 (fun s0 s => s_patch s0 = s_patch s /\ s_aux s0 = s_aux s) (so_states sol0) (so_states sol) ->
  fs (file_name path prefix "a" frame) = None ->
  exists fs1 fs2 sol',
    solution_write expand fs path prefix 0 true false sol0 = Ok fs1 /\
    solution_write expand fs1 path prefix frame false false sol = Ok fs2 /\
    solution_read expand fs2 path prefix frame fmt true [] = Ok sol' /\
    read_back true sol sol'.
Proof.
  intros Hf He Hn W0 W Hsame Hno.
  destruct (write_ok sol0 t0 num_eqn num_aux data W0 fs path prefix 0 true ltac:(lia))
    as (fs1 & z0 & Hz0 & E1 & _ & _ & _ & Ha1 & Hu1).
  destruct (write_ok sol t num_eqn num_aux data W fs1 path prefix frame false ltac:(lia))
    as (fs2 & s0 & H0 & E2 & Ht & Hq & Hp & Ha2 & Hu2).
  rewrite <- !(C42_reader_and_writer_agree path prefix) in Ht, Hq, Hp.
  pose proof (read_t_ok sol t num_eqn num_aux data W fs2 path prefix frame s0 H0 Ht) as RT.
  destruct (read_ok sol t num_eqn num_aux data W fs2 path prefix frame true s0 H0 Hp Ht Hq) as (_ & R2).
  assert (CN : (0 <? num_aux)%nat = true) by (apply Nat.ltb_lt; exact Hn).
  rewrite CN in Ha1, Ha2. cbn [andb] in Ha1, Ha2.
  assert (Eq : concat (map a_text (so_states sol0)) = concat (map a_text (so_states sol))).
  { pose proof (w_states _ _ _ _ _ W0) as F0. pose proof (w_states _ _ _ _ _ W) as F. revert F0 F. clear - Hsame.
    generalize (so_states sol0) (so_states sol) Hsame. clear Hsame. intros l l' H F0 F.
    induction H as [|a b l l' (Ep & Ea) _ IH]; [reflexivity|]. inversion F0; inversion F; subst.
    cbn [map concat]. f_equal; [|apply IH; assumption]. unfold a_text. rewrite Ep, Ea.
    rewrite (ws_num_aux _ _ _ _ _ _ H1), (ws_num_aux _ _ _ _ _ _ H5). reflexivity. }
  assert (NI : forall f g, (0 <= f)%Z -> (0 <= g)%Z -> f <> g ->
     ~ In (file_name path prefix "a" f) (map (fun k => file_name path prefix k g) kinds)).
  { intros f g P1 P2 Hne Hin. apply in_map_iff in Hin. destruct Hin as (k & Ek & Hk).
    apply file_name_inj in Ek; [|exact Hk|right; right; left; reflexivity|exact P2|exact P1]. lia. }
  destruct (R2 Hn eq_refl) as (new & En & F).
  { right. rewrite !C42_reader_and_writer_agree. split.
    - rewrite Ha2. rewrite Hu1; [exact Hno|]. apply NI; lia.
    - rewrite Hu2 by (apply NI; lia). rewrite Ha1, Eq. reflexivity. }
  exists fs1, fs2, (mkSolution new (so_num_dim sol)). unfold solution_write. rewrite He.
  split; [exact E1|]. split; [exact E2|]. split.
  - rewrite (dispatch expand fs2 path prefix frame fmt true [] _ RT); [exact En|reflexivity|exact He].
  - constructor; [reflexivity|]. cbn [so_states].
    apply (Forall2_sub (reread_state_aux t num_eqn num_aux data)); [|exact F].
    intros s s' Hs Hr. apply (read_back_aux sol t num_eqn num_aux data W s s' Hs Hr).
Qed.

(** Writing again what was read gives the same files: nothing is lost beyond the first rounding.  (The
    dimensions must carry the names the reader uses.) *)
Theorem C40_writing_again_gives_the_same_files (expand : text -> text) (fs fs2 : @files D)
    (path prefix path2 prefix2 : text) (frame frame2 : Z)
    (fmt : option text) (sol : solution) t num_eqn num_aux data :
  (0 <= frame)%Z -> (0 <= frame2)%Z -> expand path = path -> expand path2 = path2 ->
  writable sol t num_eqn num_aux data ->
  Forall (fun s => map d_name (p_dims (s_patch s)) = firstn (length (p_dims (s_patch s))) [lit "x"; lit "y"; lit "z"])
         (so_states sol) ->
  exists fs1 sol1 fs3,
    solution_write expand fs path prefix frame true false sol = Ok fs1 /\
    solution_read expand fs1 path prefix frame fmt true [] = Ok sol1 /\
    solution_write expand fs2 path2 prefix2 frame2 true false sol1 = Ok fs3 /\
    (forall kind, In kind ["t"; "q"; "pkl"]%string \/ (kind = "a"%string /\ (0 < num_aux)%nat) ->
       fs3 (file_name path2 prefix2 kind frame2) = fs1 (file_name path prefix kind frame)).
Proof.
  intros Hf Hf2 He He2 W N.
  destruct (write_ok sol t num_eqn num_aux data W fs path prefix frame true Hf)
    as (fs1 & s0 & H0 & E & Ht & Hq & Hp & Ha & Hu).
  pose proof Ht as Ht'. pose proof Hq as Hq'. pose proof Hp as Hp'.
  rewrite <- !(C42_reader_and_writer_agree path prefix) in Ht', Hq', Hp'.
  pose proof (read_t_ok sol t num_eqn num_aux data W fs1 path prefix frame s0 H0 Ht') as RT.
  destruct (read_ok sol t num_eqn num_aux data W fs1 path prefix frame true s0 H0 Hp' Ht' Hq') as (R1 & R2).
  assert (NE : forall k1 k2, In k1 kinds -> In k2 kinds -> k1 <> k2 ->
     file_name path2 prefix2 k1 frame2 <> file_name path2 prefix2 k2 frame2).
  { intros k1 k2 K1 K2 Hne Ek. apply file_name_inj in Ek; [tauto|assumption..]. }
  assert (Kt : In "t"%string kinds) by (left; reflexivity).
  assert (Kq : In "q"%string kinds) by (right; left; reflexivity).
  assert (Ka : In "a"%string kinds) by (right; right; left; reflexivity).
  assert (Kp : In "pkl"%string kinds) by (right; right; right; left; reflexivity).
  exists fs1. unfold solution_write. rewrite He, He2.
  assert (T0 : forall s, In s (so_states sol) -> t_file s sol = t_file s0 sol).
  { intros s Hs. pose proof (st sol t num_eqn num_aux data W s Hs) as S. pose proof (st sol t num_eqn num_aux data W s0 H0) as S0.
    unfold t_file. rewrite (ws_t _ _ _ _ _ _ S), (ws_num_eqn _ _ _ _ _ _ S), (ws_num_aux _ _ _ _ _ _ S).
    rewrite (ws_t _ _ _ _ _ _ S0), (ws_num_eqn _ _ _ _ _ _ S0), (ws_num_aux _ _ _ _ _ _ S0). reflexivity. }
  destruct (Nat.ltb_spec 0 num_aux) as [Cn|Cn].
  - cbn [andb] in Ha. destruct (R2 Cn eq_refl) as (new & En & F).
    { left. rewrite C42_reader_and_writer_agree. exact Ha. }
    exists (mkSolution new (so_num_dim sol)).
    assert (Q1 : all_states (q_part false) new = Ok (concat (map q_text (so_states sol)))).
    { apply (states_again (q_part false) q_text (reread_state_aux t num_eqn num_aux data)); [|exact F].
      intros s s' Hs Hr. apply (q_text_again sol t num_eqn num_aux data W N s s' Hs). right; exact Hr. }
    assert (A1 : all_states a_part new = Ok (concat (map a_text (so_states sol)))).
    { apply (states_again a_part a_text (reread_state_aux t num_eqn num_aux data)); [|exact F].
      intros s s' Hs Hr. apply (a_text_again sol t num_eqn num_aux data W N s s' Hs Hr). }
    pose proof (f_equal (@length _) (eq_refl new)) as _.
    assert (L : length new = length (so_states sol)) by (clear -F; induction F; cbn [length]; lia).
    destruct (so_states sol) as [|h0 r0] eqn:Es; [destruct H0|].
    inversion F as [|? n0 ? r Hn0 Fr]; subst. rewrite <- Es in *.
    assert (Hh : In h0 (so_states sol)) by (rewrite Es; left; reflexivity).
    pose proof (t_file_again sol t num_eqn num_aux data W h0 n0 (n0 :: r) Hh (or_intror Hn0) L) as TF.
    assert (P0 : s_num_aux n0 = num_aux /\ s_data n0 = data) by (destruct Hn0 as (q' & a & a' & -> & _); split; reflexivity).
    destruct P0 as (P1 & P2).
    assert (CN : (0 <? num_aux)%nat = true) by (apply Nat.ltb_lt; exact Cn).
    eexists. split; [exact E|]. split; [|split].
    + rewrite (dispatch expand fs1 path prefix frame fmt true [] _ RT); [exact En|reflexivity|exact He].
    + unfold write. cbn [so_states]. rewrite Q1. cbn [bind]. rewrite P1, P2, CN. cbn [andb]. rewrite A1. cbn [bind]. reflexivity.
    + rewrite TF, (T0 h0 Hh). intros kind [[<- |[<- |[<- |[]]]]|[-> _]].
      * rewrite !store_other by (apply NE; try assumption; discriminate). rewrite store_same. symmetry; exact Ht.
      * rewrite !store_other by (apply NE; try assumption; discriminate). rewrite store_same. symmetry; exact Hq.
      * rewrite store_same. symmetry; exact Hp.
      * rewrite store_other by (apply NE; try assumption; discriminate). rewrite store_same. symmetry; exact Ha.
  - assert (CN : (0 <? num_aux)%nat = false) by (apply Nat.ltb_ge; exact Cn).
    destruct R1 as (new & En & F); [left; reflexivity|].
    exists (mkSolution new (so_num_dim sol)).
    assert (Q1 : all_states (q_part false) new = Ok (concat (map q_text (so_states sol)))).
    { apply (states_again (q_part false) q_text (reread_state t num_eqn num_aux data)); [|exact F].
      intros s s' Hs Hr. apply (q_text_again sol t num_eqn num_aux data W N s s' Hs). left; exact Hr. }
    assert (L : length new = length (so_states sol)) by (clear -F; induction F; cbn [length]; lia).
    destruct (so_states sol) as [|h0 r0] eqn:Es; [destruct H0|].
    inversion F as [|? n0 ? r Hn0 Fr]; subst. rewrite <- Es in *.
    assert (Hh : In h0 (so_states sol)) by (rewrite Es; left; reflexivity).
    pose proof (t_file_again sol t num_eqn num_aux data W h0 n0 (n0 :: r) Hh (or_introl Hn0) L) as TF.
    assert (P0 : s_num_aux n0 = num_aux /\ s_data n0 = data) by (destruct Hn0 as (q' & -> & _); split; reflexivity).
    destruct P0 as (P1 & P2).
    eexists. split; [exact E|]. split; [|split].
    + rewrite (dispatch expand fs1 path prefix frame fmt true [] _ RT); [exact En|reflexivity|exact He].
    + unfold write. cbn [so_states]. rewrite Q1. cbn [bind]. rewrite P1, P2, CN. cbn [andb bind]. reflexivity.
    + rewrite TF, (T0 h0 Hh). intros kind [[<- |[<- |[<- |[]]]]|[_ Habs]]; [| | |lia].
      * rewrite !store_other by (apply NE; try assumption; discriminate). rewrite store_same. symmetry; exact Ht.
      * rewrite !store_other by (apply NE; try assumption; discriminate). rewrite store_same. symmetry; exact Hq.
      * rewrite store_same. symmetry; exact Hp.
Qed.
End Files.

(** A concrete case: two patches of a 2D solution with two components and one auxiliary field. *)
Definition demo_patch (i : Z) (lo : Q) : patch :=
  mkPatch i (i + 1) [mkDimn lo (lo + 1) 3 (lit "x"); mkDimn 0 (1 # 3) 2 (lit "y")].
Definition demo_state (i : Z) (lo : Q) : @state Z :=
  mkState (demo_patch i lo) (1 # 7) 2
          (fun m ix => inject_Z (m + 1) / inject_Z (7 + nth 0 ix 0%Z + 3 * nth 1 ix 0%Z)) 0 None
          1 (Some (fun m ix => - inject_Z (i + nth 0 ix 0%Z * nth 1 ix 0%Z))) (Some 5%Z).
Definition demo_sol : @solution Z := mkSolution [demo_state 1 0; demo_state 2 (5 # 3)] 2.
Definition no_files : @files Z := fun _ => None.

Lemma double_range_dec x : (qeqb x 0 || (qleb (ten_to (-324)) (Qabs x) && qltb (Qabs x) (ten_to 309)))%bool = true -> double_range x.
Proof.
  intros H. apply orb_true_iff in H. destruct H as [H|H]; [left; apply qeqb_eq, H|]. apply andb_true_iff in H. destruct H.
  right. split; [apply qleb_le|apply qltb_lt]; assumption.
Qed.
Lemma demo_cells m ix k : (0 <= m < k)%Z -> cell_of [3; 2]%Z ix ->
  exists i j, ix = [i; j] /\ In m (range k) /\ In i (range 3) /\ In j (range 2).
Proof.
  intros Hm H. inversion H as [|i n ix1 ns1 Hi H1]; subst. inversion H1 as [|j n ix2 ns2 Hj H2]; subst. inversion H2; subst.
  exists i, j. repeat split; apply range_in; assumption.
Qed.
Lemma demo_finite k (f : field) :
  forallb (fun m => forallb (fun i => forallb (fun j =>
      (qeqb (f m [i; j]) 0 || (qleb (ten_to (-324)) (Qabs (f m [i; j])) && qltb (Qabs (f m [i; j])) (ten_to 309)))%bool)
      (range 2)) (range 3)) (range (Z.of_nat k)) = true -> finite_array k [3; 2]%Z f.
Proof.
  intros H m ix Hm Hx. destruct (demo_cells m ix _ Hm Hx) as (i & j & -> & Im & Ii & Ij).
  apply double_range_dec. rewrite forallb_forall in H. specialize (H m Im).
  rewrite forallb_forall in H. specialize (H i Ii). rewrite forallb_forall in H. exact (H j Ij).
Qed.

Example C40_case : writable demo_sol (1 # 7) 2 1 (Some 5%Z).
Proof.
  assert (K : forall i lo, (i = 1 \/ i = 2)%Z -> writable_state demo_sol (1 # 7) 2 1 (Some 5%Z) (demo_state i lo)).
  { intros i lo Hi. constructor; try reflexivity.
    - constructor; [reflexivity|]. constructor; [|constructor; [|constructor]]; (split; [reflexivity|]).
      + split; [cbn [d_lower d_upper]; lra|]. intros [K|[]]; discriminate.
      + split; [reflexivity|]. intros [K|[]]; discriminate.
    - apply demo_finite. vm_compute. reflexivity.
    - intros _. eexists. split; [reflexivity|]. apply demo_finite. destruct Hi as [-> | ->]; vm_compute; reflexivity. }
  constructor; try (cbn; lia); [discriminate|].
  constructor; [apply K; lia|]. constructor; [apply K; lia|constructor].
Qed.

Example C40_case_later_frame : (0 < 1)%nat /\
  Forall2 (fun s0 s => s_patch s0 = s_patch s /\ s_aux s0 = s_aux s) (so_states demo_sol) (so_states demo_sol) /\
  Forall (fun s => map d_name (p_dims (s_patch s)) = firstn (length (p_dims (s_patch s))) [lit "x"; lit "y"; lit "z"])
         (so_states demo_sol).
Proof.
  split; [lia|]. split; [constructor; [split; reflexivity|constructor; [split; reflexivity|constructor]]|].
  constructor; [reflexivity|constructor; [reflexivity|constructor]].
Qed.

(** The program computes the round trip: the first patch, the value of component 1 in cell (2,1), the
    auxiliary value there and the problem data. *)
Example C40_run :
  match solution_write (fun p => p) no_files (lit "_output") (lit "fort") 3 true false demo_sol with
  | Ok fs => match solution_read (fun p => p) fs (lit "_output") (lit "fort") 3 None true [] with
             | Ok s' => match so_states s' with
                        | [_; s2] => (Z.eqb (p_index (s_patch s2)) 2 && qeqb (s_q s2 1%Z [2; 1]%Z) (166666667 # 1000000000) &&
                                      qeqb (s_t s2) (142857143 # 1000000000) &&
                                      match s_aux s2 with Some a => qeqb (a 0%Z [2; 1]%Z) (-4) | None => false end &&
                                      match s_data s2 with Some d => Z.eqb d 5 | None => false end)%bool
                        | _ => false
                        end
             | Err _ => false
             end
  | Err _ => false
  end = true.
Proof. vm_compute. reflexivity. Qed.

(** *** C67: output of derived quantities *)

(** The same solution with the derived quantities p in the place of q. *)
Definition p_as_q {D} (s : @state D) : @state D :=
  match s_p s with
  | Some p => mkState (s_patch s) (s_t s) (s_mp s) p (s_mp s) (s_p s) (s_num_aux s) (s_aux s) (s_data s)
  | None => s
  end.
Definition p_solution {D} (sol : @solution D) : @solution D := mkSolution (map p_as_q (so_states sol)) (so_num_dim sol).

(** If p has as many components as q, the files written for p read back as p. *)
Theorem C67_p_output_partial {D} (expand : text -> text) (fs : @files D) (path prefix : text) (frame : Z)
    (fmt : option text) (read_aux : bool) (sol : solution) t num_eqn num_aux data :
  (0 <= frame)%Z -> expand path = path -> writable (p_solution sol) t num_eqn num_aux data ->
  Forall (fun s => s_p s <> None /\ s_mp s = s_num_eqn s) (so_states sol) ->
  fs (file_name path prefix "a" frame) = None -> fs (file_name path prefix "a" 0) = None ->
  exists fs' sol',
    solution_write expand fs path prefix frame false true sol = Ok fs' /\
    solution_read expand fs' path prefix frame fmt read_aux [] = Ok sol' /\
    read_back false (p_solution sol) sol'.
Proof.
  intros Hf He W Hp H1 H2.
  destruct (C40_ascii_round_trip expand fs path prefix frame fmt false read_aux (p_solution sol) t num_eqn num_aux data Hf He W
              (fun _ => conj H1 H2)) as (fs' & sol' & E1 & E2 & E3 & _).
  rewrite andb_false_r in E3. cbn [andb] in E3.
  exists fs', sol'. split; [|split; assumption].
  rewrite <- E1. unfold solution_write, write, p_solution. cbn [so_states so_num_dim].
  assert (Q : all_states (q_part true) (so_states sol) = all_states (q_part false) (map p_as_q (so_states sol))).
  { clear -Hp. induction Hp as [|s l (Hs & Hm) _ IH]; [reflexivity|]. cbn [map all_states]. rewrite IH.
    assert (X : q_part true s = q_part false (p_as_q s)) by (unfold q_part, p_as_q; destruct (s_p s); [reflexivity|congruence]).
    rewrite X. reflexivity. }
  rewrite Q. clear Q. unfold t_file. cbn [so_states so_num_dim]. rewrite map_length.
  destruct (so_states sol) as [|s r]; [reflexivity|].
  inversion Hp as [|? ? (Hs & Hm) _]; subst. cbn [map].
  assert (X : s_t (p_as_q s) = s_t s /\ s_num_eqn (p_as_q s) = s_num_eqn s /\ s_num_aux (p_as_q s) = s_num_aux s /\
              s_data (p_as_q s) = s_data s).
  { unfold p_as_q. destruct (s_p s); repeat split. symmetry in Hm. symmetry. exact Hm. }
  destruct X as (X1 & X2 & X3 & X4). rewrite X1, X2, X3, X4, !andb_false_r. reflexivity.
Qed.

(** In general they do not: with one component in q and two in p the header still says one and the second
    component is lost; with two in q and one in p reading the frame fails. *)
Definition p_state (num_eqn mp : nat) : @state Z :=
  mkState (mkPatch 1 1 [mkDimn 0 1 2 (lit "x")]) 0 num_eqn (fun _ _ => 1) mp (Some (fun m ix => inject_Z (10 * m + nth 0 ix 0%Z))) 0 None None.
Example C67_case : writable (p_solution (mkSolution [p_state 1 1] 1)) 0 1 0 (@None Z) /\
  Forall (fun s => s_p s <> None /\ s_mp s = s_num_eqn s) (so_states (mkSolution [p_state 1 1] 1)).
Proof.
  split; [|constructor; [split; [discriminate|reflexivity]|constructor]].
  constructor; try (cbn; lia); [discriminate|]. constructor; [|constructor]. constructor; try reflexivity.
  - constructor; [reflexivity|]. constructor; [|constructor]. split; [reflexivity|]. split; [reflexivity|]. intros [K|[]]; discriminate.
  - intros m ix Hm Hx. inversion Hx as [|i n ix1 ns1 Hi H1]; subst. inversion H1; subst. change (Z.of_nat 1) with 1%Z in Hm.
    assert (m = 0%Z) by lia. subst m. apply double_range_dec.
    cbn in Hi. assert (i = 0 \/ i = 1)%Z as [-> | ->] by lia; vm_compute; reflexivity.
  - intros H. lia.
Qed.
Definition p_read (num_eqn mp : nat) : result (@solution Z) :=
  match solution_write (fun p => p) no_files (lit "_p") (lit "claw_p") 0 false true (mkSolution [p_state num_eqn mp] 1) with
  | Ok fs => solution_read (fun p => p) fs (lit "_p") (lit "claw_p") 0 None false []
  | Err e => Err e
  end.
Lemma one_state (r : result (@solution Z)) n :
  match r with Ok s => match so_states s with [s'] => Nat.eqb (s_num_eqn s') n | _ => false end | Err _ => false end = true ->
  exists sol' s', r = Ok sol' /\ so_states sol' = [s'] /\ s_num_eqn s' = n.
Proof.
  destruct r as [sol'|e]; [|discriminate]. destruct (so_states sol') as [|s' [|]] eqn:E; try discriminate.
  intros K. exists sol', s'. repeat split; [exact E|]. apply Nat.eqb_eq, K.
Qed.
Theorem C67_p_output_refuted :
  (exists sol' s', p_read 1 2 = Ok sol' /\ so_states sol' = [s'] /\ s_num_eqn s' = 1%nat) /\
  p_read 2 1 = Err BadPatchData.
Proof.
  split.
  - apply one_state. vm_compute. reflexivity.
  - vm_compute. reflexivity.
Qed.

(** *** C68: reading into a Solution that already holds data *)

(** The states of the frame are appended: the old ones stay in front.  (Auxiliary arrays not asked for.) *)
Theorem C68_reading_appends_partial {D} (fs : @files D) (path prefix : text) (frame : Z) (prior : list state) (sol : solution) :
  read fs path prefix frame false [] = Ok sol ->
  read fs path prefix frame false prior = Ok (mkSolution (prior ++ so_states sol) (so_num_dim sol)).
Proof.
  unfold read. destruct (match fs (read_name path prefix "pkl" frame) with
    | Some (PickleFile d) => Ok d | Some _ => Err BadValue | None => Ok None end) as [data|e]; cbn [bind]; [|discriminate].
  destruct (read_t fs path prefix frame) as [f|e]; cbn [bind]; [|discriminate].
  destruct (open_text fs (read_name path prefix "q" frame)) as [h|e]; cbn [bind]; [|discriminate].
  destruct (read_many (read_state f data) (Z.to_nat (f_nstates f)) h) as [[new h']|e]; cbn [bind]; [|discriminate].
  destruct new as [|n0 r]; [discriminate|]. rewrite !andb_false_r. cbn [app]. intros E. injection E as <-. reflexivity.
Qed.

(** So a Solution that is read twice holds two copies, and its time is still the old one. *)
Theorem C68_reading_replaces_refuted :
  exists (fs : @files Z) path prefix sol1 sol2 prior s1 s2,
    read fs path prefix 0 false [] = Ok sol1 /\ so_states sol1 = prior /\
    read fs path prefix 1 false prior = Ok sol2 /\
    length (so_states sol2) = 2%nat /\
    nth_error (so_states sol2) 0 = Some s1 /\ s_t s1 == 0 /\ nth_error (so_states sol2) 1 = Some s2 /\ s_t s2 == 3.
Proof.
  pose (at_t := fun t : Q => mkState (mkPatch 1 1 [mkDimn 0 1 2 (lit "x")]) t 1 (fun _ _ => 1) 0 None 0 None None : @state Z).
  pose (w := match write no_files (lit "o") (lit "fort") 0 false false (mkSolution [at_t 0] 1) with
             | Ok f => match write f (lit "o") (lit "fort") 1 false false (mkSolution [at_t 3] 1) with Ok f2 => f2 | Err _ => f end
             | Err _ => no_files end).
  assert (K : match read w (lit "o") (lit "fort") 0 false [], read w (lit "o") (lit "fort") 1 false [] with
              | Ok a, Ok b => match so_states a, so_states b with
                              | [s1], [s2] => (qeqb (s_t s1) 0 && qeqb (s_t s2) 3)%bool
                              | _, _ => false end
              | _, _ => false end = true) by (vm_compute; reflexivity).
  clearbody w. clear at_t.
  destruct (read w (lit "o") (lit "fort") 0 false []) as [a|] eqn:Ea; [|discriminate].
  destruct (read w (lit "o") (lit "fort") 1 false []) as [b|] eqn:Eb; [|discriminate].
  destruct (so_states a) as [|s1 [|]] eqn:Sa; try discriminate.
  destruct (so_states b) as [|s2 [|]] eqn:Sb; try discriminate.
  apply andb_true_iff in K. destruct K as [K1 K2]. apply qeqb_eq in K1, K2.
  pose proof (C68_reading_appends_partial w (lit "o") (lit "fort") 1 [s1] b Eb) as R. rewrite Sb in R.
  exists w, (lit "o"), (lit "fort"), a, (mkSolution ([s1] ++ [s2]) (so_num_dim b)), [s1], s1, s2.
  repeat split; assumption.
Qed.

(** *** C69: paths with a tilde or a variable *)

(** When the format is given, a frame written to any path can be read from the same path, provided nothing is
    found under the unexpanded path. *)
Theorem C69_expanded_path_partial {D} (expand : text -> text) (fs fs' : @files D) (path prefix : text) (frame : Z)
    (read_aux : bool) (sol : solution) t num_eqn num_aux data :
  (0 <= frame)%Z -> (expand (expand path) = expand path) -> writable sol t num_eqn num_aux data ->
  solution_write expand fs path prefix frame true false sol = Ok fs' ->
  fs' (read_name path prefix "t" frame) = None ->
  exists sol', solution_read expand fs' path prefix frame (Some (lit "ascii")) read_aux [] = Ok sol' /\
    read_back ((0 <? num_aux)%nat && read_aux) sol sol'.
Proof.
  intros Hf He W Hw Hnone.
  destruct (C40_ascii_round_trip expand fs (expand path) prefix frame None true read_aux sol t num_eqn num_aux data Hf He W) as (fs1 & sol' & E1 & E2 & E3 & _).
  { discriminate. }
  unfold solution_write in Hw, E1. rewrite He in E1. rewrite Hw in E1. injection E1 as <-.
  exists sol'. rewrite andb_true_r in E3. split; [|exact E3].
  rewrite <- E2. unfold solution_read. unfold read_t at 1, open_text at 1. rewrite Hnone. cbn [bind].
  change (text_eqb (firstn 6 (lit "ascii")) (lit "binary")) with false.
  change (text_eqb (lit "ascii") (lit "ascii")) with true. cbv iota.
  destruct (write_ok sol t num_eqn num_aux data W fs (expand path) prefix frame true Hf)
    as (fs2 & s0 & H0 & E & Ht & _).
  rewrite Hw in E. injection E as <-. rewrite <- (C42_reader_and_writer_agree (expand path) prefix) in Ht.
  rewrite (read_t_ok sol t num_eqn num_aux data W fs' (expand path) prefix frame s0 H0 Ht). cbn [t_values f_format].
  change (text_eqb (firstn 6 (lit "ascii")) (lit "binary")) with false.
  change (text_eqb (lit "ascii") (lit "ascii")) with true. cbv iota. rewrite He. reflexivity.
Qed.

(** Without a format, the default, it fails: the header is looked for under the unexpanded path. *)
Theorem C69_expanded_path_refuted :
  exists (expand : text -> text) (path : text) (fs' : @files Z),
    expand path = lit "/home/u/out" /\ expand (lit "/home/u/out") = lit "/home/u/out" /\
    solution_write expand no_files path (lit "fort") 0 true false demo_sol = Ok fs' /\
    (exists sol', solution_read expand fs' (lit "/home/u/out") (lit "fort") 0 None true [] = Ok sol') /\
    solution_read expand fs' path (lit "fort") 0 None true [] = Err BadType.
Proof.
  pose (ex := fun p : text => match p with c :: r => if Ascii.eqb c (ascii_of_N 126) then lit "/home/u" ++ r else p | [] => p end).
  exists ex, (lit "~/out").
  assert (W : exists fs', solution_write ex no_files (lit "~/out") (lit "fort") 0 true false demo_sol = Ok fs').
  { unfold solution_write. change (ex (lit "~/out")) with (lit "/home/u/out").
    destruct (write_ok demo_sol _ _ _ _ C40_case no_files (lit "/home/u/out") (lit "fort") 0 true ltac:(lia)) as (fs' & _ & _ & E & _).
    exists fs'. exact E. }
  destruct W as (fs' & W). exists fs'.
  split; [reflexivity|]. split; [reflexivity|]. split; [exact W|].
  assert (K : match solution_write ex no_files (lit "~/out") (lit "fort") 0 true false demo_sol with
              | Ok f => match solution_read ex f (lit "/home/u/out") (lit "fort") 0 None true [],
                              solution_read ex f (lit "~/out") (lit "fort") 0 None true [] with
                        | Ok _, Err BadType => true | _, _ => false end
              | Err _ => false end = true) by (vm_compute; reflexivity).
  rewrite W in K. clear W. clearbody ex.
  destruct (solution_read ex fs' (lit "/home/u/out") (lit "fort") 0 None true []) as [s'|]; [|discriminate].
  split; [exists s'; reflexivity|].
  destruct (solution_read ex fs' (lit "~/out") (lit "fort") 0 None true []) as [s2|[]]; try discriminate. reflexivity.
Qed.

Print Assumptions C40_ascii_round_trip.
Print Assumptions C40_auxiliary_arrays_of_the_first_frame.
Print Assumptions C40_writing_again_gives_the_same_files.
Print Assumptions C41_printed_numbers_are_accurate.
Print Assumptions C41_rows_split_into_their_numbers.
Print Assumptions C41_printed_integers_are_exact.
Print Assumptions C42_file_names_are_unique.
Print Assumptions C42_file_names_sort_by_frame.
Print Assumptions C42_reader_and_writer_agree.
Print Assumptions C67_p_output_partial.
Print Assumptions C67_p_output_refuted.
Print Assumptions C68_reading_appends_partial.
Print Assumptions C68_reading_replaces_refuted.
Print Assumptions C69_expanded_path_partial.
Print Assumptions C69_expanded_path_refuted.
