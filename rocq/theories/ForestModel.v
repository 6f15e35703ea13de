(** Frames in the ForestClaw format: src/forestclaw/fileio/__init__.py, src/forestclaw/fileio/ascii.py,
    src/forestclaw/geometry.py, and the way they are reached from src/pyclaw/solution.py.

    Importing the package clawpack.forestclaw.fileio replaces the functions read_patch_header and
    write_patch_header of the module clawpack.pyclaw.fileio.ascii.  A Python process imports a package at
    most once and never undoes it, so the state of a process is one flag: have they been replaced?

    Only fort.t, fort.q and the pickle file are modelled here (write_aux = write_p = False, read_aux =
    False); AsciiModel has the rest of the ordinary format.  Paths are already expanded. *)
From Coq Require Import Ascii String.
From Verif Require Import Base FormatModel AsciiModel.
Open Scope Q_scope.

(** forestclaw/geometry.py:19-26 Patch: the two numbers a ForestClaw patch has in addition; a patch of
    class pyclaw.geometry.Patch has neither attribute *)
Record extra := mkExtra { x_block : Z; x_rank : Z }.

Section Files.
Context {D : Type}.

(** a state, and the additional numbers of its patch ([None]: the patch is a pyclaw.geometry.Patch) *)
Record fstate := mkF { fs_state : @state D; fs_extra : option extra }.
Record fsolution := mkFSol { fo_states : list fstate; fo_num_dim : nat }.
(** the solution without the additional numbers *)
Definition plain_sol (sol : fsolution) : @solution D := mkSolution (map fs_state (fo_states sol)) (fo_num_dim sol).

(** forestclaw/fileio/ascii.py:21-33 write_patch_header *)
Definition forest_header (p : patch) (x : extra) : text :=
  int_line (p_index p) (lit "patch_number") ++
  int_line (p_level p) (lit "AMR_level") ++
  int_line (x_block x) (lit "block_number") ++
  int_line (x_rank x) (lit "mpi_rank") ++
  concat (map (fun d => int_line (d_n d) (lit "m" ++ d_name d)) (p_dims p)) ++
  concat (map (fun d => float_line (d_lower d) (d_name d ++ lit "low")) (p_dims p)) ++
  concat (map (fun d => float_line (d_delta d) (lit "d" ++ d_name d)) (p_dims p)) ++
  [c_nl].
(** pyclaw/fileio/ascii.py:56: the call of write_patch_header, looked up in the module when it is made.
    AttributeError, for a patch without a block number, is counted as a [BadType]. *)
Definition write_header (patched : bool) (p : patch) (x : option extra) : result text :=
  if patched then match x with Some e => Ok (forest_header p e) | None => Err BadType end
  else Ok (patch_header p).

(** forestclaw/fileio/ascii.py:36-81 read_patch_header *)
Definition read_forest_header (num_dim : nat) (h : handle) : result (patch * extra * handle) :=
  '(index, h) <- read_int h ;;
  '(level, h) <- read_int h ;;
  '(block, h) <- read_int h ;;
  '(rank, h) <- read_int h ;;
  '(ns, h) <- read_many read_int num_dim h ;;
  '(lows, h) <- read_many read_float num_dim h ;;
  '(ds, h) <- read_many read_float num_dim h ;;
  let h := tl h in
  dims <- make_dims [lit "x"; lit "y"; lit "z"] ns lows ds ;;
  Ok (mkPatch index level dims, mkExtra block rank, h).
(** pyclaw/fileio/ascii.py:180: the call of read_patch_header *)
Definition read_header (patched : bool) (num_dim : nat) (h : handle) : result (patch * option extra * handle) :=
  if patched then '(p, e, h) <- read_forest_header num_dim h ;; Ok (p, Some e, h)
  else '(p, h) <- read_patch_header num_dim h ;; Ok (p, None, h).

(** pyclaw/fileio/ascii.py:55-61: one state in fort.q *)
Definition fq_part (patched : bool) (s : fstate) : result text :=
  hd <- write_header patched (s_patch (fs_state s)) (fs_extra s) ;;
  a <- write_array (s_patch (fs_state s)) (s_q (fs_state s)) (s_num_eqn (fs_state s)) ;;
  Ok (hd ++ a).
Fixpoint all_fstates (f : fstate -> result text) (ss : list fstate) : result text :=
  match ss with
  | [] => Ok []
  | s :: r => a <- f s ;; b <- all_fstates f r ;; Ok (a ++ b)
  end.
(** pyclaw/fileio/ascii.py:17-81 write; forestclaw/fileio/ascii.py:12 is the same function.  When it
    raises, files already written are not described. *)
Definition fwrite (patched : bool) (fs : @files D) (path prefix : text) (frame : Z) (sol : fsolution)
    : result (@files D) :=
  match fo_states sol with
  | [] => Err BadIndex
  | s0 :: _ =>
      let fs1 := store fs (file_name path prefix "t" frame) (TextFile (t_file (fs_state s0) (plain_sol sol))) in
      q <- all_fstates (fq_part patched) (fo_states sol) ;;
      let fs2 := store fs1 (file_name path prefix "q" frame) (TextFile q) in
      Ok (store fs2 (file_name path prefix "pkl" frame) (PickleFile (s_data (fs_state s0))))
  end.

(** pyclaw/fileio/ascii.py:178-200: one round of the loop over the patches *)
Definition fread_state (patched : bool) (f : t_data) (data : option D) (h : handle) : result (fstate * handle) :=
  '(p, e, h) <- read_header patched (Z.to_nat (f_num_dim f)) h ;;
  if (f_num_eqn f <? 0)%Z then Err BadValue else
  '(q, h) <- read_array p (Z.to_nat (f_num_eqn f)) h ;;
  Ok (mkF (mkState p (f_t f) (Z.to_nat (f_num_eqn f)) q 0 None (Z.to_nat (f_num_aux f)) None data) e, h).
(** pyclaw/fileio/ascii.py:129-239 read into a new Solution; forestclaw/fileio/ascii.py:13 is the same
    function *)
Definition fread (patched : bool) (fs : @files D) (path prefix : text) (frame : Z) : result fsolution :=
  data <- match fs (read_name path prefix "pkl" frame) with
          | Some (PickleFile d) => Ok d
          | Some _ => Err BadValue
          | None => Ok None
          end ;;
  f <- read_t fs path prefix frame ;;
  h <- open_text fs (read_name path prefix "q" frame) ;;
  '(new, _) <- read_many (fread_state patched f data) (Z.to_nat (f_nstates f)) h ;;
  match new with
  | [] => Err BadIndex
  | n0 :: _ => Ok (mkFSol new (length (p_dims (s_patch (fs_state n0)))))
  end.

(** solution.py:253-302 Solution.write with one format, 395-410 get_write_func, and
    forestclaw/fileio/__init__.py:8-12 executed by the import there.  The result is the flag of the process
    afterwards and the files.  Formats other than these two are not modelled here. *)
Definition do_write (patched : bool) (fs : @files D) (path prefix : text) (frame : Z) (format : text)
    (sol : fsolution) : bool * result (@files D) :=
  if text_eqb format (lit "forestclaw") then (true, fwrite true fs path prefix frame sol)
  else if text_eqb format (lit "ascii") then (patched, fwrite patched fs path prefix frame sol)
  else (patched, Err NotModelled).

(** solution.py:305-364 Solution.read and 367-392 get_read_func: the format named in fort.t wins over the
    argument *)
Definition do_read (patched : bool) (fs : @files D) (path prefix : text) (frame : Z) (format : option text)
    : bool * result fsolution :=
  let fmt := match read_t fs path prefix frame with
             | Ok f => match f_format f with Some w => Some w | None => format end
             | Err _ => format
             end in
  match fmt with
  | None => (patched, Err BadType)
  | Some w =>
      if text_eqb (firstn 6 w) (lit "binary") then (patched, Err NotModelled)
      else if text_eqb w (lit "ascii") then (patched, fread patched fs path prefix frame)
      else if text_eqb w (lit "forestclaw") then (true, fread true fs path prefix frame)
      else if (text_eqb w (lit "hdf") || text_eqb w (lit "hdf5") || text_eqb w (lit "petsc"))%bool
      then (patched, Err NotModelled)
      else (patched, Err BadValue)
  end.

(** A process: it starts with the ordinary functions, and reads and writes frames one after another.  An
    exception does not end it; a write that raises leaves the files it had not reached as they were (the
    others are not described: see [fwrite]). *)
Inductive action :=
| WriteFrame (path prefix : text) (frame : Z) (format : text) (sol : fsolution)
| ReadFrame (path prefix : text) (frame : Z) (format : option text).
Definition act (p : bool * @files D) (a : action) : bool * @files D :=
  match a with
  | WriteFrame path prefix frame format sol =>
      let '(b, r) := do_write (fst p) (snd p) path prefix frame format sol in
      (b, match r with Ok fs => fs | Err _ => snd p end)
  | ReadFrame path prefix frame format => (fst (do_read (fst p) (snd p) path prefix frame format), snd p)
  end.
Definition process (fs : @files D) (l : list action) : bool * @files D := fold_left act l (false, fs).
End Files.
