(** C157 and C158: frames in the ForestClaw format, and what using it does to ordinary frames. *)
From Coq Require Import Ascii String.
From Verif Require Import Base FormatModel FormatSpec AsciiModel AsciiSpec FormatProofs FormatProofs2 AsciiProofs AsciiProofs2
  AsciiProps ForestModel ForestSpec ForestProofs.
Open Scope Q_scope.

Section Files.
Context {D : Type}.

(** *** C157: a ForestClaw frame comes back *)

(** Within one process: writing in this format succeeds and changes only the three files of the frame.
    Reading the frame afterwards, whatever else the process has done in between to other files and whatever
    format is asked for, gives the solution back, with the block number and the rank of every patch. *)
Theorem C157_same_process_partial : forall patched (fs : @files D) path prefix frame sol t num_eqn num_aux data,
  (0 <= frame)%Z -> writable (plain_sol sol) t num_eqn num_aux data -> forest_patches sol ->
  exists fs', do_write patched fs path prefix frame (lit "forestclaw") sol = (true, Ok fs') /\
    (forall name, ~ In name (map (fun k => read_name path prefix k frame) ["t"; "q"; "pkl"]%string) -> fs' name = fs name) /\
    forall (l : list (@action D)) format, let p := fold_left act l (true, fs') in
      (forall k, In k ["t"; "q"; "pkl"]%string -> snd p (read_name path prefix k frame) = fs' (read_name path prefix k frame)) ->
      exists sol', do_read (fst p) (snd p) path prefix frame format = (true, Ok sol') /\ forest_read_back sol sol'.
Proof.
  intros patched fs path prefix frame sol t num_eqn num_aux data Hf W F.
  destruct (fwrite_forest sol t num_eqn num_aux data W fs path prefix frame Hf F) as (fs' & s0 & I0 & E & Ht & Hq & Hp & Ho).
  exists fs'. split; [unfold do_write; rewrite text_eqb_refl, E; reflexivity|]. split; [exact Ho|].
  intros l format. cbv zeta. rewrite (process_patched l (true, fs') eq_refl).
  generalize (snd (fold_left act l (true, fs'))). intros fs2 Hs.
  assert (Ht2 : fs2 (read_name path prefix "t" frame) = Some (TextFile (t_file (fs_state s0) (plain_sol sol)))).
  { rewrite Hs by (cbn [In]; tauto). exact Ht. }
  destruct (says_t_file sol t num_eqn num_aux data W s0 I0 fs2 path prefix frame Ht2) as (f & Er & Sf & Ff).
  destruct (fread_ok sol t num_eqn num_aux data W fs2 path prefix frame f F Sf Er) as (sol' & E' & R).
  { rewrite Hs by (cbn [In]; tauto). exact Hp. }
  { rewrite Hs by (cbn [In]; tauto). exact Hq. }
  exists sol'. split; [|exact R]. unfold do_read. rewrite Er, Ff.
  replace (text_eqb (firstn 6 (lit "ascii")) (lit "binary")) with false by reflexivity.
  rewrite text_eqb_refl, E'. reflexivity.
Qed.

(** In any process, when fort.t has no line naming the format (the files of the ForestClaw program): asking
    for the format by name reads the frame. *)
Theorem C157_no_format_line_partial : forall patched patched' (fs fs' : @files D) path prefix frame sol t num_eqn num_aux data,
  (0 <= frame)%Z -> writable (plain_sol sol) t num_eqn num_aux data -> forest_patches sol ->
  do_write patched fs path prefix frame (lit "forestclaw") sol = (true, Ok fs') ->
  exists sol', do_read patched' (store fs' (read_name path prefix "t" frame) (TextFile (forest_t sol t num_eqn num_aux)))
                 path prefix frame (Some (lit "forestclaw")) = (true, Ok sol') /\ forest_read_back sol sol'.
Proof.
  intros patched patched' fs fs0 path prefix frame sol t num_eqn num_aux data Hf W F.
  destruct (fwrite_forest sol t num_eqn num_aux data W fs path prefix frame Hf F) as (fs' & s0 & I0 & E & Ht & Hq & Hp & Ho).
  unfold do_write. rewrite text_eqb_refl, E. intros K. inversion K; subst fs0; clear K.
  assert (NM : forall k, file_name path prefix k frame = read_name path prefix k frame).
  { intros k. rewrite read_name_stem, file_name_stem. reflexivity. }
  set (fs2 := store fs' _ _).
  destruct (says_forest_t sol t num_eqn num_aux fs2 path prefix frame) as (f & Er & Sf & Ff); [apply store_same|].
  destruct (fread_ok sol t num_eqn num_aux data W fs2 path prefix frame f F Sf Er) as (sol' & E' & R).
  { unfold fs2. rewrite store_other; [exact Hp|]. intros K. symmetry in K. rewrite <- (NM "pkl"%string) in K. exact (t_name_not_pkl _ _ _ _ _ _ K). }
  { unfold fs2. rewrite store_other; [exact Hq|]. intros K. symmetry in K. rewrite <- (NM "q"%string) in K. exact (t_name_not_q _ _ _ _ _ _ K). }
  exists sol'. split; [|exact R]. unfold do_read. rewrite Er, Ff.
  replace (text_eqb (firstn 6 (lit "forestclaw")) (lit "binary")) with false by reflexivity.
  replace (text_eqb (lit "forestclaw") (lit "ascii")) with false by reflexivity.
  rewrite text_eqb_refl, E'. reflexivity.
Qed.

(** In another process the frame cannot be read, although the format is named: fort.t says ascii.  Every
    frame whose first patch has the default block number 0 raises. *)
Theorem C157_other_process : forall patched (fs fs' : @files D) path prefix frame sol t num_eqn num_aux data format s0 rest x,
  (0 <= frame)%Z -> writable (plain_sol sol) t num_eqn num_aux data -> forest_patches sol ->
  fo_states sol = s0 :: rest -> fs_extra s0 = Some x -> (x_block x <= 0)%Z ->
  do_write patched fs path prefix frame (lit "forestclaw") sol = (true, Ok fs') ->
  do_read false fs' path prefix frame format = (false, Err AssertFails).
Proof.
  intros patched fs fs0 path prefix frame sol t num_eqn num_aux data format s0 rest x Hf W F Es Ex B.
  destruct (fwrite_forest sol t num_eqn num_aux data W fs path prefix frame Hf F) as (fs' & s1 & I1 & E & Ht & Hq & Hp & Ho).
  unfold do_write. rewrite text_eqb_refl, E. intros K. inversion K; subst fs0; clear K.
  destruct (says_t_file sol t num_eqn num_aux data W s1 I1 fs' path prefix frame Ht) as (f & Er & Sf & Ff).
  unfold do_read. rewrite Er, Ff.
  replace (text_eqb (firstn 6 (lit "ascii")) (lit "binary")) with false by reflexivity.
  rewrite text_eqb_refl. f_equal. unfold fread. rewrite Hp, Er. cbn [bind]. unfold open_text. rewrite Hq. cbn [bind].
  destruct Sf as (_ & _ & -> & _ & F5). rewrite Nat2Z.id, Es. cbn [length map concat read_many].
  unfold fread_state at 1. rewrite F5, Nat2Z.id. unfold fq_text at 1. rewrite Ex. rewrite <- app_assoc. unfold read_header.
  assert (I0 : In (fs_state s0) (so_states (plain_sol sol))).
  { unfold plain_sol. cbn [so_states]. rewrite Es. left. reflexivity. }
  rewrite ordinary_reads_forest; [reflexivity|exact (st_len _ _ _ _ _ W _ I0)|exact (nd_range _ _ _ _ _ W)|exact (st_valid _ _ _ _ _ W _ I0)|exact B].
Qed.

(** *** C158: ordinary frames do not depend on earlier use of the ForestClaw format *)

(** In a process that never asks for the ForestClaw format (starting from files none of which names it),
    writing and reading ordinary frames do what the ordinary format describes (C40), whatever was read and
    written before. *)
Theorem C158_without_forest_partial : forall (fs : @files D) (l : list (@action D)),
  no_forest_label fs -> forallb (fun a => negb (asks_forest a)) l = true ->
  let patched := fst (process fs l) in let fs1 := snd (process fs l) in
  (forall path prefix frame sol,
     do_write patched fs1 path prefix frame (lit "ascii") sol
     = (false, write fs1 path prefix frame false false (plain_sol sol))) /\
  (forall path prefix frame f, read_t fs1 path prefix frame = Ok f -> f_format f = Some (lit "ascii") ->
   forall format, exists r, do_read patched fs1 path prefix frame format = (false, r) /\
     plain_result r = read fs1 path prefix frame false [] /\
     (forall sol, r = Ok sol -> ordinary_patches sol)).
Proof.
  intros fs l N A. cbv zeta. unfold process. destruct (process_ordinary l (false, fs) eq_refl N A) as [-> N'].
  split.
  - intros path prefix frame sol. unfold do_write.
    replace (text_eqb (lit "ascii") (lit "forestclaw")) with false by reflexivity.
    rewrite text_eqb_refl, fwrite_plain. reflexivity.
  - intros path prefix frame f Er Ff format. unfold do_read. rewrite Er, Ff.
    replace (text_eqb (firstn 6 (lit "ascii")) (lit "binary")) with false by reflexivity.
    rewrite text_eqb_refl. eexists. split; [reflexivity|]. apply fread_plain.
Qed.

(** Once the process has written, or tried to write, one frame in the ForestClaw format, it can never write
    an ordinary frame again: every attempt raises. *)
Theorem C158_write_after : forall patched (fs : @files D) path prefix frame sol (l : list (@action D)) path' prefix' frame' osol s0 rest,
  let p := act (patched, fs) (WriteFrame path prefix frame (lit "forestclaw") sol) in
  let p' := fold_left act l p in
  fo_states osol = s0 :: rest -> fs_extra s0 = None ->
  do_write (fst p') (snd p') path' prefix' frame' (lit "ascii") osol = (true, Err BadType).
Proof.
  intros patched fs path prefix frame sol l path' prefix' frame' osol s0 rest. cbv zeta. intros Es Ex.
  assert (B : fst (act (patched, fs) (WriteFrame path prefix frame (lit "forestclaw") sol)) = true).
  { cbn [act fst snd]. unfold do_write. rewrite text_eqb_refl. reflexivity. }
  rewrite (process_patched l _ B). unfold do_write.
  replace (text_eqb (lit "ascii") (lit "forestclaw")) with false by reflexivity. rewrite text_eqb_refl.
  unfold fwrite. rewrite Es. cbn [all_fstates]. unfold fq_part at 1, write_header. rewrite Ex. reflexivity.
Qed.

(** Nor can it read one: every ordinary frame, also one it wrote itself before, raises. *)
Theorem C158_read_after : forall patched (fs fs' : @files D) path prefix frame sol t num_eqn num_aux data format
    path' prefix' frame' fsol (l : list (@action D)),
  (0 <= frame)%Z -> writable (plain_sol sol) t num_eqn num_aux data ->
  do_write false fs path prefix frame (lit "ascii") sol = (false, Ok fs') ->
  let p := fold_left act l (act (patched, fs') (WriteFrame path' prefix' frame' (lit "forestclaw") fsol)) in
  (forall k, In k ["t"; "q"; "pkl"]%string -> snd p (read_name path prefix k frame) = fs' (read_name path prefix k frame)) ->
  do_read (fst p) (snd p) path prefix frame format = (true, Err BadValue).
Proof.
  intros patched fs fs0 path prefix frame sol t num_eqn num_aux data format path' prefix' frame' fsol l Hf W.
  destruct (write_ok (plain_sol sol) t num_eqn num_aux data W fs path prefix frame false Hf) as (fs' & s1 & I1 & E & Ht & Hq & Hp & _).
  unfold do_write. replace (text_eqb (lit "ascii") (lit "forestclaw")) with false by reflexivity.
  rewrite text_eqb_refl, fwrite_plain, E. intros K. inversion K; subst fs0; clear K. cbv zeta. intros Hs.
  set (p := fold_left _ _ _) in *.
  assert (B : fst p = true).
  { unfold p. apply process_patched. cbn [act fst snd]. unfold do_write. rewrite text_eqb_refl. reflexivity. }
  rewrite B.
  assert (NM : forall k, file_name path prefix k frame = read_name path prefix k frame).
  { intros k. rewrite read_name_stem, file_name_stem. reflexivity. }
  rewrite !NM in *.
  assert (Ht2 : snd p (read_name path prefix "t" frame) = Some (TextFile (t_file s1 (plain_sol sol)))).
  { rewrite Hs by (cbn [In]; tauto). exact Ht. }
  pose proof (read_t_ok _ _ _ _ _ W (snd p) path prefix frame s1 I1 Ht2) as Er.
  unfold do_read. rewrite Er. unfold t_values at 1. cbn [f_format].
  replace (text_eqb (firstn 6 (lit "ascii")) (lit "binary")) with false by reflexivity.
  rewrite text_eqb_refl. f_equal. unfold fread. rewrite (Hs "pkl"%string), Hp, Er by (cbn [In]; tauto). cbn [bind].
  unfold open_text. rewrite (Hs "q"%string), Hq by (cbn [In]; tauto). cbn [bind].
  unfold t_values at 2. cbn [f_nstates]. rewrite Nat2Z.id.
  destruct (head_state _ _ _ _ _ W) as (h0 & r0 & Eh). rewrite Eh. cbn [length map concat read_many].
  unfold fread_state at 1. unfold t_values at 1. cbn [f_num_dim]. rewrite Nat2Z.id. unfold q_text at 1. rewrite <- app_assoc.
  unfold read_header.
  assert (I0 : In h0 (so_states (plain_sol sol))) by (rewrite Eh; left; reflexivity).
  rewrite forest_reads_ordinary; [reflexivity|exact (st_len _ _ _ _ _ W _ I0)|exact (nd_range _ _ _ _ _ W)|exact (st_valid _ _ _ _ _ W _ I0)].
Qed.
End Files.

(** *** concrete cases: the two-patch solution of C40, on block 0 and 1 of ranks 3 and 0 *)
Definition forest_sol : @fsolution Z :=
  mkFSol [mkF (demo_state 1 0) (Some (mkExtra 0 3)); mkF (demo_state 2 (5 # 3)) (Some (mkExtra 1 0))] 2.
Definition ordinary_sol : @fsolution Z := mkFSol [mkF (demo_state 1 0) None; mkF (demo_state 2 (5 # 3)) None] 2.

Example C157_case : writable (plain_sol forest_sol) (1 # 7) 2 1 (Some 5%Z) /\ forest_patches forest_sol.
Proof. split; [exact C40_case|]. constructor; [discriminate|constructor; [discriminate|constructor]]. Qed.
Example C158_case : writable (plain_sol ordinary_sol) (1 # 7) 2 1 (Some 5%Z) /\ ordinary_patches ordinary_sol /\
  no_forest_label (D := Z) (fun _ => None).
Proof.
  split; [exact C40_case|]. split; [constructor; [reflexivity|constructor; [reflexivity|constructor]]|].
  intros path prefix frame f H. discriminate.
Qed.
(** the program computes the round trip within a process: blocks, ranks and a value of the second patch *)
Example C157_run :
  match do_write false no_files (lit "_output") (lit "fort") 3 (lit "forestclaw") forest_sol with
  | (true, Ok fs) =>
      match do_read true fs (lit "_output") (lit "fort") 3 None with
      | (true, Ok s) => match fo_states s with
                        | [a; b] => (match fs_extra a, fs_extra b with
                                     | Some x, Some y => Z.eqb (x_rank x) 3 && Z.eqb (x_block y) 1
                                     | _, _ => false
                                     end && qeqb (s_q (fs_state b) 1%Z [2; 1]%Z) (166666667 # 1000000000))%bool
                        | _ => false
                        end
      | _ => false
      end
  | _ => false
  end = true.
Proof. vm_compute. reflexivity. Qed.

(** A frame written in the ForestClaw format is not readable in a new process that asks for this format. *)
Theorem C157_new_process_refuted : exists (sol : @fsolution Z) fs',
  writable (plain_sol sol) (1 # 7) 2 1 (Some 5%Z) /\ forest_patches sol /\
  do_write false no_files (lit "_output") (lit "fort") 3 (lit "forestclaw") sol = (true, Ok fs') /\
  do_read false fs' (lit "_output") (lit "fort") 3 (Some (lit "forestclaw")) = (false, Err AssertFails).
Proof.
  destruct C157_case as [W F].
  destruct (C157_same_process_partial false no_files (lit "_output") (lit "fort") 3 forest_sol _ _ _ _ ltac:(lia) W F) as (fs' & E & _).
  exists forest_sol, fs'. split; [exact W|]. split; [exact F|]. split; [exact E|].
  refine (C157_other_process false no_files fs' _ _ 3 forest_sol _ _ _ _ _ _ _ (mkExtra 0 3) _ W F eq_refl eq_refl _ E);
    [lia|cbn [x_block]; lia].
Qed.

(** Writing an ordinary frame succeeds in a new process; after a frame has been written in the ForestClaw
    format, writing the same frame and reading the one written before both raise. *)
Theorem C158_after_forest_refuted : exists (osol fsol : @fsolution Z) fs1,
  do_write false no_files (lit "_output") (lit "fort") 0 (lit "ascii") osol = (false, Ok fs1) /\
  let p := act (false, fs1) (WriteFrame (lit "_output") (lit "forest") 0 (lit "forestclaw") fsol) in
  do_write (fst p) (snd p) (lit "_output") (lit "fort") 1 (lit "ascii") osol = (true, Err BadType) /\
  do_read (fst p) (snd p) (lit "_output") (lit "fort") 0 (Some (lit "ascii")) = (true, Err BadValue).
Proof.
  destruct C158_case as (W & O & _). destruct C157_case as [WF F].
  destruct (write_ok (plain_sol ordinary_sol) _ _ _ _ W no_files (lit "_output") (lit "fort") 0 false ltac:(lia))
    as (fs1 & s1 & _ & E & _).
  assert (E1 : do_write false no_files (lit "_output") (lit "fort") 0 (lit "ascii") ordinary_sol = (false, Ok fs1)).
  { unfold do_write. replace (text_eqb (lit "ascii") (lit "forestclaw")) with false by reflexivity.
    rewrite text_eqb_refl, fwrite_plain, E. reflexivity. }
  exists ordinary_sol, forest_sol, fs1. split; [exact E1|]. cbv zeta. split.
  - exact (C158_write_after false fs1 (lit "_output") (lit "forest") 0 forest_sol [] (lit "_output") (lit "fort") 1
             ordinary_sol _ _ eq_refl eq_refl).
  - refine (C158_read_after false no_files fs1 (lit "_output") (lit "fort") 0 ordinary_sol _ _ _ _ _
             (lit "_output") (lit "forest") 0 forest_sol [] _ W E1 _); [lia|].
    cbn [fold_left act fst snd].
    destruct (C157_same_process_partial false fs1 (lit "_output") (lit "forest") 0 forest_sol _ _ _ _ ltac:(lia) WF F) as (fs' & E' & Ho & _).
    rewrite E'. cbn [snd]. intros k Hk. apply Ho. cbn [In] in Hk |- *. cbn [map In].
    destruct Hk as [<- |[<- |[<- |[]]]]; intros K; repeat destruct K as [K|K]; try discriminate; exact K.
Qed.

Print Assumptions C157_same_process_partial.
Print Assumptions C157_no_format_line_partial.
Print Assumptions C157_other_process.
Print Assumptions C157_new_process_refuted.
Print Assumptions C158_without_forest_partial.
Print Assumptions C158_write_after.
Print Assumptions C158_read_after.
Print Assumptions C158_after_forest_refuted.
