(** C138: crashes while a frame is being written. *)
From Coq Require Import Ascii String.
From Verif Require Import Base FormatModel FormatSpec AsciiModel AsciiSpec FormatProofs FormatProofs2 AsciiProofs AsciiProofs2 AsciiProps
  CrashModel CrashSpec CrashProofs CrashProofs2 CrashProofs3.
Open Scope Q_scope.

Section Files.
Context {D : Type}.

(** Writing a frame is writing these files. *)
Theorem C138_files (fs : @files D) path prefix frame write_aux write_p sol :
  write fs path prefix frame write_aux write_p sol =
  match frame_files path prefix frame write_aux write_p sol with Ok l => Ok (stores fs l) | Err e => Err e end.
Proof.
  unfold write, frame_files. destruct (so_states sol) as [|s0 r]; [reflexivity|].
  destruct (all_states (q_part write_p) (s0 :: r)) as [q|e]; [|reflexivity]. cbn [bind].
  destruct ((0 <? s_num_aux s0)%nat && write_aux)%bool; [|reflexivity].
  destruct (all_states a_part (s0 :: r)) as [a|e]; [|reflexivity]. reflexivity.
Qed.

(** No file of the frame, and no auxiliary file, is there before. *)
Definition fresh (fs : @files D) (path prefix : text) (frame : Z) : Prop :=
  (forall kind, In kind kinds -> fs (file_name path prefix kind frame) = None) /\ fs (file_name path prefix "a" 0) = None.

Lemma kind_t : In "t"%string kinds. Proof. left. reflexivity. Qed.
Lemma kind_q : In "q"%string kinds. Proof. right. left. reflexivity. Qed.
Lemma kind_a : In "a"%string kinds. Proof. right. right. left. reflexivity. Qed.
Lemma kind_p : In "pkl"%string kinds. Proof. right. right. right. left. reflexivity. Qed.
Lemma names_differ path prefix k1 k2 f1 f2 : In k1 kinds -> In k2 kinds -> (0 <= f1)%Z -> (0 <= f2)%Z -> k1 <> k2 ->
  file_name path prefix k1 f1 <> file_name path prefix k2 f2.
Proof. intros H1 H2 P1 P2 N E. apply file_name_inj in E; try assumption. tauto. Qed.

Lemma not_ascii (expand : text -> text) (fs : @files D) path prefix frame fmt read_aux prior sol' : expand path = path ->
  solution_read expand fs path prefix frame fmt read_aux prior = Ok sol' -> read fs path prefix frame read_aux prior = Ok sol'.
Proof.
  intros He. unfold solution_read. rewrite He. set (w := match read_t fs path prefix frame with Ok f => _ | Err _ => _ end).
  destruct w as [w|]; [|discriminate]. destruct (text_eqb (firstn 6 w) (lit "binary")); [discriminate|].
  destruct (text_eqb w (lit "ascii")); [exact (fun H => H)|]. destruct (_ || _ || _ || _)%bool; discriminate.
Qed.
Lemma no_q (fs : @files D) path prefix frame read_aux prior sol' : fs (file_name path prefix "q" frame) = None ->
  read fs path prefix frame read_aux prior <> Ok sol'.
Proof.
  intros H. rewrite <- C42_reader_and_writer_agree in H. unfold read.
  destruct (match fs (read_name path prefix "pkl" frame) with Some (PickleFile d) => Ok d | Some _ => Err BadValue | None => Ok None end); [|discriminate].
  cbn [bind]. destruct (read_t fs path prefix frame); [|discriminate]. cbn [bind]. unfold open_text. rewrite H. discriminate.
Qed.
Lemma bad_pickle (fs : @files D) path prefix frame read_aux prior sol' u : fs (file_name path prefix "pkl" frame) = Some (TextFile u) ->
  read fs path prefix frame read_aux prior <> Ok sol'.
Proof. intros H. rewrite <- C42_reader_and_writer_agree in H. unfold read. rewrite H. discriminate. Qed.

Section Frame.
Context (expand : text -> text) (fs : @files D) (path prefix : text) (frame : Z) (fmt : option text) (write_aux read_aux : bool)
  (sol : @solution D) (t : Q) (num_eqn num_aux : nat) (data : option D).
Hypothesis Hf : (0 <= frame)%Z.
Hypothesis He : expand path = path.
Hypothesis W : writable sol t num_eqn num_aux data.
Hypothesis NEW : fresh fs path prefix frame.
Let tn := file_name path prefix "t" frame.
Let qn := file_name path prefix "q" frame.
Let an := file_name path prefix "a" frame.
Let pn := file_name path prefix "pkl" frame.
Let q_all := concat (map q_text (so_states sol)).
Let a_all := concat (map a_text (so_states sol)).

Lemma tq : tn <> qn. Proof. apply names_differ; try assumption; [apply kind_t|apply kind_q|discriminate]. Qed.
Lemma ta f : (0 <= f)%Z -> file_name path prefix "a" f <> tn. Proof. intros H. apply names_differ; try assumption; [apply kind_a|apply kind_t|discriminate]. Qed.
Lemma qa f : (0 <= f)%Z -> file_name path prefix "a" f <> qn. Proof. intros H. apply names_differ; try assumption; [apply kind_a|apply kind_q|discriminate]. Qed.
Lemma tp : pn <> tn. Proof. apply names_differ; try assumption; [apply kind_p|apply kind_t|discriminate]. Qed.
Lemma qp : pn <> qn. Proof. apply names_differ; try assumption; [apply kind_p|apply kind_q|discriminate]. Qed.
Lemma pa f : (0 <= f)%Z -> file_name path prefix "a" f <> pn. Proof. intros H. apply names_differ; try assumption; [apply kind_a|apply kind_p|discriminate]. Qed.

Lemma the_files l : frame_files path prefix frame write_aux false sol = Ok l ->
  exists s0, In s0 (so_states sol) /\ s_data s0 = data /\
  l = (tn, TextFile (t_file s0 sol)) :: (qn, TextFile q_all) ::
      (if ((0 <? num_aux)%nat && write_aux)%bool then [(an, TextFile a_all)] else []) ++ [(pn, PickleFile data)].
Proof.
  unfold frame_files. pose proof (w_some _ _ _ _ _ W) as NE. destruct (so_states sol) as [|s0 r] eqn:Es; [congruence|].
  pose proof (q_states sol t num_eqn num_aux data W) as Q. rewrite Es in Q. rewrite Q. cbn [bind].
  assert (H0 : In s0 (so_states sol)) by (rewrite Es; left; reflexivity).
  pose proof (of_state sol t num_eqn num_aux data W s0 H0) as S. rewrite (ws_num_aux _ _ _ _ _ _ S), (ws_data _ _ _ _ _ _ S).
  intros E. exists s0. split; [left; reflexivity|]. split; [exact (ws_data _ _ _ _ _ _ S)|].
  unfold q_all, a_all.
  destruct ((0 <? num_aux)%nat && write_aux)%bool eqn:C.
  - apply andb_true_iff in C. destruct C as [C _]. apply Nat.ltb_lt in C.
    pose proof (a_states sol t num_eqn num_aux data W C) as A. rewrite Es in A. rewrite A in E. cbn [bind] in E. unfold tn, qn, an, pn. congruence.
  - cbn [bind] in E. unfold tn, qn, an, pn. congruence.
Qed.

Lemma t_ok (fs' : @files D) s0 : In s0 (so_states sol) -> fs' tn = Some (TextFile (t_file s0 sol)) ->
  read_t fs' path prefix frame = Ok (t_values sol t num_eqn num_aux).
Proof. intros H0 H. apply (read_t_ok sol t num_eqn num_aux data W fs' path prefix frame s0 H0). rewrite C42_reader_and_writer_agree. exact H. Qed.
Lemma no_pickle (fs' : @files D) : fs' pn = None ->
  match fs' (read_name path prefix "pkl" frame) with Some (PickleFile d) => Ok d | Some _ => Err BadValue | None => Ok None end = Ok None.
Proof. intros H. rewrite C42_reader_and_writer_agree. fold pn. rewrite H. reflexivity. Qed.

(** the beginning of q is there, nothing after it *)
Lemma in_q s0 u w sol' : In s0 (so_states sol) -> q_all = u ++ w ->
  read (store (store fs tn (TextFile (t_file s0 sol))) qn (TextFile u)) path prefix frame read_aux [] = Ok sol' ->
  ~ starts_word w /\ nearly sol sol'.
Proof.
  intros H0 E R. set (fs' := store (store fs tn (TextFile (t_file s0 sol))) qn (TextFile u)) in *.
  destruct NEW as [N1 N2].
  assert (T : fs' tn = Some (TextFile (t_file s0 sol))) by (unfold fs'; rewrite store_other by apply tq; apply store_same).
  assert (P : fs' pn = None) by (unfold fs'; rewrite store_other by apply qp; rewrite store_other by apply tp; apply N1, kind_p).
  assert (Q : fs' qn = Some (TextFile u)) by apply store_same.
  assert (A : forall f, (0 <= f)%Z -> fs (file_name path prefix "a" f) = None -> fs' (read_name path prefix "a" f) = None).
  { intros f Pf K. rewrite C42_reader_and_writer_agree. unfold fs'. rewrite store_other by (apply qa, Pf). rewrite store_other by (apply ta, Pf). exact K. }
  unfold qn in Q. rewrite <- C42_reader_and_writer_agree in Q.
  destruct (list_eq_dec ascii_dec w []) as [->|Nw].
  - rewrite app_nil_r in E. split; [apply starts_word_short; cbn [length]; lia|].
    rewrite <- E in Q.
    refine (proj1 (frame_q_whole sol t num_eqn num_aux data W None (or_introl eq_refl) fs' path prefix frame read_aux
             (no_pickle fs' P) (t_ok fs' s0 H0 T) sol' Q R) _).
    split; [apply (A frame Hf), N1, kind_a|apply (A 0%Z ltac:(lia)), N2].
  - symmetry in E. exact (frame_q_cut sol t num_eqn num_aux data W None (or_introl eq_refl) fs' path prefix frame read_aux
             (no_pickle fs' P) (t_ok fs' s0 H0 T) u w sol' Q E Nw (A frame Hf (N1 _ kind_a)) (A 0%Z ltac:(lia) N2) R).
Qed.
(** t and q are there, and the beginning of the auxiliary arrays; the pickle may be there *)
Lemma in_a (fs' : @files D) s0 u w dd sol' : In s0 (so_states sol) -> a_all = u ++ w -> (dd = None \/ dd = data) ->
  fs' tn = Some (TextFile (t_file s0 sol)) -> fs' qn = Some (TextFile q_all) -> fs' an = Some (TextFile u) ->
  match fs' pn with Some (PickleFile d) => Ok d | Some _ => Err BadValue | None => Ok None end = Ok dd ->
  read fs' path prefix frame read_aux [] = Ok sol' ->
  nearly sol sol' /\ ((0 < num_aux)%nat -> read_aux = true -> ~ starts_word w).
Proof.
  intros H0 E DD T Q A P R. unfold qn in Q. unfold an in A. unfold pn in P. rewrite <- C42_reader_and_writer_agree in Q, A, P. symmetry in E.
  exact (proj2 (frame_q_whole sol t num_eqn num_aux data W dd DD fs' path prefix frame read_aux P (t_ok fs' s0 H0 T) sol' Q R) u w A E).
Qed.
Lemma in_none (fs' : @files D) s0 dd sol' : In s0 (so_states sol) -> (dd = None \/ dd = data) ->
  fs' tn = Some (TextFile (t_file s0 sol)) -> fs' qn = Some (TextFile q_all) ->
  fs' an = None -> fs' (file_name path prefix "a" 0) = None ->
  match fs' pn with Some (PickleFile d) => Ok d | Some _ => Err BadValue | None => Ok None end = Ok dd ->
  read fs' path prefix frame read_aux [] = Ok sol' -> nearly sol sol'.
Proof.
  intros H0 DD T Q A A0 P R. unfold qn in Q. unfold an in A. unfold pn in P. rewrite <- C42_reader_and_writer_agree in Q, A, A0, P.
  exact (proj1 (frame_q_whole sol t num_eqn num_aux data W dd DD fs' path prefix frame read_aux P (t_ok fs' s0 H0 T) sol' Q R) (conj A A0)).
Qed.

(** ** the theorems *)
(** Whatever the point of the crash, a new solution that can be read from the remains is the frame, but for the last
    entry of its last array, and perhaps without auxiliary arrays and problem data. *)
Theorem C138_crash_partial l fs' sol' : frame_files path prefix frame write_aux false sol = Ok l -> crashed fs l fs' ->
  solution_read expand fs' path prefix frame fmt read_aux [] = Ok sol' -> nearly sol sol'.
Proof.
  intros L C R. apply not_ascii in R; [|exact He]. destruct (the_files l L) as (s0 & H0 & _ & El). destruct NEW as [N1 N2].
  subst l. inversion C as [|n c c' later RM|n c later fs1 C1]; subst; clear C.
  - exfalso. exact (no_q _ _ _ _ _ _ _ (N1 _ kind_q) R).
  - exfalso. refine (no_q _ _ _ _ _ _ _ _ R). rewrite store_other by (apply not_eq_sym, tq). apply N1, kind_q.
  - set (f1 := store fs tn (TextFile (t_file s0 sol))) in *.
    inversion C1 as [|n c c' later RM|n c later fs2 C2]; subst; clear C1.
    + exfalso. refine (no_q _ _ _ _ _ _ _ _ R). unfold f1. rewrite store_other by (apply not_eq_sym, tq). apply N1, kind_q.
    + inversion RM as [u v|]; subst. exact (proj2 (in_q s0 u v sol' H0 (eq_sym H1) R)).
    + set (f2 := store f1 qn (TextFile q_all)) in *.
      assert (T2 : f2 tn = Some (TextFile (t_file s0 sol))) by (unfold f2; rewrite store_other by apply tq; apply store_same).
      assert (Q2 : f2 qn = Some (TextFile q_all)) by apply store_same.
      assert (A2 : forall f, (0 <= f)%Z -> fs (file_name path prefix "a" f) = None -> f2 (file_name path prefix "a" f) = None).
      { intros f Pf K. unfold f2, f1. rewrite store_other by (apply qa, Pf). rewrite store_other by (apply ta, Pf). exact K. }
      assert (P2 : f2 pn = None) by (unfold f2, f1; rewrite store_other by apply qp; rewrite store_other by apply tp; apply N1, kind_p).
      assert (WITHOUT : read f2 path prefix frame read_aux [] = Ok sol' -> nearly sol sol').
      { intros R2. apply (in_none f2 s0 None sol' H0 (or_introl eq_refl) T2 Q2 (A2 frame Hf (N1 _ kind_a)) (A2 0%Z ltac:(lia) N2)); [rewrite P2; reflexivity|exact R2]. }
      destruct ((0 <? num_aux)%nat && write_aux)%bool; cbn [app] in C2.
      * inversion C2 as [|n c c' later RM|n c later fs3 C3]; subst; clear C2; [exact (WITHOUT R)| |].
        -- inversion RM as [u v|]; subst. apply (in_a (store f2 an (TextFile u)) s0 u v None sol'); try assumption.
           ++ symmetry. exact H1.
           ++ left. reflexivity.
           ++ rewrite store_other by (apply not_eq_sym, ta, Hf). exact T2.
           ++ rewrite store_other by (apply not_eq_sym, qa, Hf). exact Q2.
           ++ apply store_same.
           ++ rewrite store_other by (apply not_eq_sym, pa, Hf). rewrite P2. reflexivity.
        -- set (f3 := store f2 an (TextFile a_all)) in *.
           assert (T3 : f3 tn = Some (TextFile (t_file s0 sol))) by (unfold f3; rewrite store_other by (apply not_eq_sym, ta, Hf); exact T2).
           assert (Q3 : f3 qn = Some (TextFile q_all)) by (unfold f3; rewrite store_other by (apply not_eq_sym, qa, Hf); exact Q2).
           assert (A3 : f3 an = Some (TextFile a_all)) by apply store_same.
           inversion C3 as [|n c c' later RM|n c later fs4 C4]; subst; clear C3.
           ++ apply (in_a f3 s0 a_all [] None sol'); try assumption; [rewrite app_nil_r; reflexivity|left; reflexivity|].
              unfold f3. rewrite store_other by (apply not_eq_sym, pa, Hf). rewrite P2. reflexivity.
           ++ inversion RM; subst. exfalso. exact (bad_pickle _ _ _ _ _ _ _ [] (store_same _ _ _) R).
           ++ inversion C4; subst. apply (in_a (store f3 pn (PickleFile data)) s0 a_all [] data sol'); try assumption; [rewrite app_nil_r; reflexivity|right; reflexivity| | | |].
              ** rewrite store_other by (apply not_eq_sym, tp). exact T3.
              ** rewrite store_other by (apply not_eq_sym, qp). exact Q3.
              ** rewrite store_other by (apply pa, Hf). exact A3.
              ** rewrite store_same. reflexivity.
      * inversion C2 as [|n c c' later RM|n c later fs3 C3]; subst; clear C2; [exact (WITHOUT R)| |].
        -- inversion RM; subst. exfalso. exact (bad_pickle _ _ _ _ _ _ _ [] (store_same _ _ _) R).
        -- inversion C3; subst. apply (in_none (store f2 pn (PickleFile data)) s0 data sol'); try assumption; [right; reflexivity| | | | |].
           ++ rewrite store_other by (apply not_eq_sym, tp). exact T2.
           ++ rewrite store_other by (apply not_eq_sym, qp). exact Q2.
           ++ rewrite store_other by (apply pa, Hf). exact (A2 frame Hf (N1 _ kind_a)).
           ++ rewrite store_other by (apply pa; lia). exact (A2 0%Z ltac:(lia) N2).
           ++ rewrite store_same. reflexivity.
Qed.

(** If a number is missing in fort.q as a whole, the frame is refused; *)
Theorem C138_number_missing_in_q nt ct nq u v later :
  frame_files path prefix frame write_aux false sol = Ok ((nt, ct) :: (nq, TextFile (u ++ v)) :: later) -> starts_word v ->
  exists e, solution_read expand (store (store fs nt ct) nq (TextFile u)) path prefix frame fmt read_aux [] = Err e.
Proof.
  intros L V. destruct (the_files _ L) as (s0 & H0 & _ & El).
  pose proof (f_equal (fun l => match l with x :: _ => x | [] => (nt, ct) end) El) as E1. cbv beta iota in E1.
  pose proof (f_equal (fun l => match l with _ :: x :: _ => x | _ => (nt, ct) end) El) as E2. cbv beta iota in E2.
  assert (nt = tn) by congruence. assert (ct = TextFile (t_file s0 sol)) by congruence. assert (nq = qn) by congruence.
  assert (Eq : q_all = u ++ v) by congruence. subst nt ct nq.
  destruct (solution_read _ _ _ _ _ _ _ _) as [sol'|e] eqn:R; [|exists e; reflexivity]. exfalso.
  apply not_ascii in R; [|exact He]. exact (proj1 (in_q s0 u v sol' H0 Eq R) V).
Qed.
(** if one is missing in the auxiliary file, the frame is refused when the auxiliary arrays are asked for; *)
Theorem C138_number_missing_in_aux nt ct nq cq na u v np cp : read_aux = true ->
  frame_files path prefix frame write_aux false sol = Ok [(nt, ct); (nq, cq); (na, TextFile (u ++ v)); (np, cp)] -> starts_word v ->
  exists e, solution_read expand (store (store (store fs nt ct) nq cq) na (TextFile u)) path prefix frame fmt read_aux [] = Err e.
Proof.
  intros RA L V. destruct (the_files _ L) as (s0 & H0 & _ & El). destruct NEW as [N1 N2].
  destruct ((0 <? num_aux)%nat && write_aux)%bool eqn:C; [|discriminate El]. cbn [app] in El.
  apply andb_true_iff in C. destruct C as [C _]. apply Nat.ltb_lt in C.
  pose proof (f_equal (fun l => match l with x :: _ => x | [] => (nt, ct) end) El) as E1. cbv beta iota in E1.
  pose proof (f_equal (fun l => match l with _ :: x :: _ => x | _ => (nt, ct) end) El) as E2. cbv beta iota in E2.
  pose proof (f_equal (fun l => match l with _ :: _ :: x :: _ => x | _ => (nt, ct) end) El) as E3. cbv beta iota in E3.
  assert (nt = tn) by congruence. assert (ct = TextFile (t_file s0 sol)) by congruence. assert (nq = qn) by congruence.
  assert (cq = TextFile q_all) by congruence. assert (na = an) by congruence.
  assert (Ea : a_all = u ++ v) by congruence. subst nt ct nq cq na.
  destruct (solution_read _ _ _ _ _ _ _ _) as [sol'|e] eqn:R; [|exists e; reflexivity]. exfalso.
  apply not_ascii in R; [|exact He].
  refine (proj2 (in_a _ s0 u v None sol' H0 Ea (or_introl eq_refl) _ _ _ _ R) C RA V).
  - rewrite store_other by (apply not_eq_sym, ta, Hf). rewrite store_other by apply tq. apply store_same.
  - rewrite store_other by (apply not_eq_sym, qa, Hf). apply store_same.
  - apply store_same.
  - rewrite store_other by (apply not_eq_sym, pa, Hf). rewrite store_other by apply qp. rewrite store_other by apply tp.
    unfold pn. rewrite (N1 _ kind_p). reflexivity.
Qed.
End Frame.
End Files.
Print Assumptions C138_files.
Print Assumptions C138_crash_partial.
Print Assumptions C138_number_missing_in_q.
Print Assumptions C138_number_missing_in_aux.

(** The case of C40_case meets the hypotheses. *)
Example C138_fresh : fresh no_files (lit "_output") (lit "fort") 3.
Proof. split; [intros; reflexivity|reflexivity]. Qed.

(** ** the property as a whole is false *)
(** One cell with the value 2/3 and a crash before the last character of the number: 20/3 is read without a message. *)
Definition one_cell : @solution Z :=
  mkSolution [mkState (mkPatch 1 1 [mkDimn 0 1 1 (lit "x")]) 0 1 (fun _ _ => 2 # 3) 0 None 0 None None] 1.
Lemma one_cell_writable : writable one_cell 0 1 0 None.
Proof.
  constructor; [cbn; lia|lia|discriminate|]. constructor; [|constructor]. constructor; try reflexivity.
  - constructor; [reflexivity|]. constructor; [|constructor]. split; [reflexivity|]. split; [reflexivity|]. intros [K|[]]; discriminate.
  - intros m ix _ _. apply double_range_dec. reflexivity.
  - intros K. lia.
Qed.
Definition cut_q (k : nat) (r : result (list (text * @content Z))) : option (@files Z) :=
  match r with
  | Ok ((nt, ct) :: (nq, TextFile q) :: _) => Some (store (store no_files nt ct) nq (TextFile (firstn (length q - k) q)))
  | _ => None
  end.
Lemma cut_crashed k r fs' : cut_q k r = Some fs' -> exists l, r = Ok l /\ crashed no_files l fs'.
Proof.
  destruct r as [l|e]; [|discriminate]. destruct l as [|(nt & ct) [|(nq & cq) later]]; [discriminate|discriminate|].
  destruct cq as [q| |]; [|discriminate|discriminate]. cbn [cut_q]. intros E. assert (E' : store (store no_files nt ct) nq (TextFile (firstn (length q - k) q)) = fs') by congruence.
  subst fs'. eexists. split; [reflexivity|]. apply crashed_later, crashed_in.
  pose proof (remains_text (D := Z) (firstn (length q - k) q) (skipn (length q - k) q)) as K. rewrite firstn_skipn in K. exact K.
Qed.
Definition read_cut (k : nat) : option (list Q) :=
  match cut_q k (frame_files (lit "_output") (lit "fort") 0 false false one_cell) with
  | Some fs' => match solution_read (fun p => p) fs' (lit "_output") (lit "fort") 0 None false [] with
                | Ok sol' => Some (map (fun s => Qred (s_q s 0%Z [0%Z])) (so_states sol'))
                | Err _ => None
                end
  | None => None
  end.
Lemma from_cut k v : read_cut k = Some [v] -> exists l fs' sol' s,
  frame_files (lit "_output") (lit "fort") 0 false false one_cell = Ok l /\ crashed no_files l fs' /\
  solution_read (fun p => p) fs' (lit "_output") (lit "fort") 0 None false [] = Ok sol' /\
  so_states sol' = [s] /\ s_q s 0%Z [0%Z] == v.
Proof.
  unfold read_cut. destruct (cut_q k _) as [fs'|] eqn:E; [|discriminate]. destruct (cut_crashed _ _ _ E) as (l & El & C).
  destruct (solution_read _ fs' _ _ _ _ _ _) as [sol'|e] eqn:R; [|discriminate].
  intros K. destruct (so_states sol') as [|s [|s2 r]] eqn:S; [discriminate K| |discriminate K].
  exists l, fs', sol', s. split; [exact El|]. split; [exact C|]. split; [exact R|]. split; [exact S|].
  assert (V : Qred (s_q s 0%Z [0%Z]) = v) by (cbn [map] in K; congruence). rewrite <- V. symmetry. apply Qred_correct.
Qed.
Lemma far y : y == 666666667 # 100000000 -> ~ nine_digits (2 # 3) y.
Proof.
  intros E [[K _]|(e & K1 & _ & K3)]; [vm_compute in K; discriminate K|].
  rewrite E in K3. rewrite ten_to_pow10 in K1, K3. change (Qabs (2 # 3)) with (2 # 3) in K1.
  assert (P : pow10 (e - 8) <= pow10 e).
  { replace e with ((e - 8) + 8)%Z at 2 by lia. rewrite pow10_plus. change (pow10 8) with (100000000 # 1).
    pose proof (pow10_pos (e - 8)). lra. }
  assert (A : Qabs ((666666667 # 100000000) - (2 # 3)) == (666666667 # 100000000) - (2 # 3)) by reflexivity. rewrite A in K3. lra.
Qed.
Theorem C138_wrong_value_refuted : exists l fs' sol' s,
  frame_files (lit "_output") (lit "fort") 0 false false one_cell = Ok l /\ crashed no_files l fs' /\
  solution_read (fun p => p) fs' (lit "_output") (lit "fort") 0 None false [] = Ok sol' /\
  so_states sol' = [s] /\ ~ nine_digits (2 # 3) (s_q s 0%Z [0%Z]).
Proof.
  destruct (from_cut 2 (666666667 # 100000000)) as (l & fs' & sol' & s & K1 & K2 & K3 & K4 & K5); [vm_compute; reflexivity|].
  exists l, fs', sol', s. split; [exact K1|]. split; [exact K2|]. split; [exact K3|]. split; [exact K4|apply far, K5].
Qed.
Print Assumptions C138_wrong_value_refuted.
(** Without the newline the frame is complete, without the whole number it is refused. *)
Example C138_case : read_cut 1 = Some [666666667 # 1000000000] /\ read_cut 15 = None /\ starts_word (lit "    6.66666667e-01").
Proof.
  split; [vm_compute; reflexivity|]. split; [vm_compute; reflexivity|]. exists (lit "   "), c_space, "6"%char, (lit ".66666667e-01").
  split; [reflexivity|]. split; reflexivity.
Qed.
(** A crash after fort.q is complete: the auxiliary arrays and the problem data are missing without a message. *)
Theorem C138_data_missing_refuted : exists l fs' sol' s r,
  frame_files (lit "_output") (lit "fort") 3 true false demo_sol = Ok l /\ crashed no_files l fs' /\
  solution_read (fun p => p) fs' (lit "_output") (lit "fort") 3 None true [] = Ok sol' /\
  so_states sol' = s :: r /\ s_aux s = None /\ s_data s = None.
Proof.
  destruct (frame_files (lit "_output") (lit "fort") 3 true false demo_sol) as [l|e] eqn:L; [|vm_compute in L; discriminate L].
  destruct (the_files (lit "_output") (lit "fort") 3 true demo_sol (1 # 7) 2 1 (Some 5%Z) C40_case l L) as (s0 & H0 & _ & El).
  set (fs' := store (store no_files (file_name (lit "_output") (lit "fort") "t" 3) (TextFile (t_file s0 demo_sol)))
                (file_name (lit "_output") (lit "fort") "q" 3) (TextFile (concat (map q_text (so_states demo_sol))))).
  assert (S0 : t_file s0 demo_sol = t_file (demo_state 1 0) demo_sol) by (destruct H0 as [<-|[<-|[]]]; reflexivity).
  assert (C : crashed no_files l fs') by (rewrite El; apply crashed_later, crashed_later, crashed_between).
  exists l, fs'. unfold fs' in *. rewrite S0 in *.
  destruct (solution_read (fun p => p) (store (store no_files _ _) _ _) (lit "_output") (lit "fort") 3 None true []) as [sol'|e] eqn:R.
  2:{ exfalso. match type of R with ?x = _ => assert (K : match x with Ok _ => true | Err _ => false end = true) by (vm_compute; reflexivity) end. rewrite R in K. discriminate K. }
  assert (K : match so_states sol' with s :: _ => match s_aux s, s_data s with None, None => true | _, _ => false end | [] => false end = true).
  { match type of R with ?x = _ => assert (K : match x with Ok sol' => match so_states sol' with s :: _ => match s_aux s, s_data s with None, None => true | _, _ => false end | [] => false end | Err _ => false end = true) by (vm_compute; reflexivity) end.
    rewrite R in K. exact K. }
  exists sol'. destruct (so_states sol') as [|s r] eqn:S; [discriminate K|]. exists s, r.
  destruct (s_aux s) eqn:A; [discriminate K|]. destruct (s_data s) eqn:Dt; [discriminate K|].
  split; [reflexivity|]. split; [exact C|]. split; [reflexivity|]. split; [reflexivity|]. split; reflexivity.
Qed.
Print Assumptions C138_data_missing_refuted.
