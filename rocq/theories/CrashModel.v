(** Writing a frame in ASCII format as a sequence of files.

    Modelled: src/pyclaw/fileio/ascii.py:41-81, one entry per open() in the order of the code.  The contents are those
    of [AsciiModel.write]; CrashProps shows that all entries together are what [AsciiModel.write] does. *)
From Coq Require Import Ascii String.
From Verif Require Import Base FormatModel AsciiModel.

Section Files.
Context {D : Type}.

(** ascii.py:41-81: names and contents of the files, in the order in which they are written *)
Definition frame_files (path prefix : text) (frame : Z) (write_aux write_p : bool) (sol : @solution D) : result (list (text * @content D)) :=
  match so_states sol with
  | [] => Err BadIndex
  | s0 :: _ =>
      q <- all_states (q_part write_p) (so_states sol) ;;
      l <- (if ((0 <? s_num_aux s0)%nat && write_aux)%bool
            then a <- all_states a_part (so_states sol) ;; Ok [(file_name path prefix "a" frame, TextFile a)]
            else Ok []) ;;
      Ok ((file_name path prefix "t" frame, TextFile (t_file s0 sol)) ::
          (file_name path prefix "q" frame, TextFile q) :: l ++
          [(file_name path prefix "pkl" frame, PickleFile (s_data s0))])
  end.
(** the files after these have been written completely *)
Definition stores (fs : @files D) (l : list (text * content)) : @files D :=
  fold_left (fun fs nc => store fs (fst nc) (snd nc)) l fs.
End Files.
