(** ASCII output files: src/pyclaw/fileio/ascii.py, and the parts of src/pyclaw/solution.py and
    src/pyclaw/util.py it is reached through.

    A file system is a function from names to contents.  A text file is a list of characters; a pickle
    file is the object stored in it (that pickling restores objects is Python's contract and is not
    modelled).  [D] is the type of the pickled objects: problem data together with the mapping function.

    An array q is a function of the component and the list of cell indices; its shape is given by the
    patch.  NaN is not a number here: an auxiliary array filled with NaN is [None]. *)
From Coq Require Import Ascii String.
From Verif Require Import Base FormatModel.
Open Scope Q_scope.

(** What an exception says. *)
Inductive error :=
| FileMissing      (* open() of a file that does not exist *)
| EndOfFile        (* IOError raised by read_data_line *)
| BadValue         (* ValueError: int() or float() of a text that is no number, unknown format *)
| BadPatchData     (* IOError raised by read_array for any problem in it *)
| AssertFails      (* AssertionError *)
| BadDimension     (* Exception: not 1, 2 or 3 dimensions *)
| BadIndex         (* IndexError *)
| BadType          (* TypeError *)
| NotModelled.     (* a file format or a NaN outside the model *)
Inductive result (A : Type) := Ok (a : A) | Err (e : error).
Arguments Ok {A} a.
Arguments Err {A} e.
Definition bind {A B} (r : result A) (f : A -> result B) : result B :=
  match r with Ok a => f a | Err e => Err e end.
Notation "x <- r ;; k" := (bind r (fun x => k)) (at level 61, r at next level, right associativity).
Notation "' p <- r ;; k" := (bind r (fun p => k)) (at level 61, p pattern, r at next level, right associativity).

(** component, then the cell indices *)
Definition field := Z -> list Z -> Q.

(** geometry.py:599-623 Dimension: lower, upper, num_cells, name *)
Record dimension := mkDimn { d_lower : Q; d_upper : Q; d_n : Z; d_name : text }.
(** geometry.py:520-523 Dimension.delta *)
Definition d_delta (d : dimension) : Q := (d_upper d - d_lower d) / inject_Z (d_n d).
(** geometry.py:625-630 the checks of the constructor *)
Definition new_dimension (lower upper : Q) (n : Z) (name : text) : result dimension :=
  if ((0 <? n)%Z && qltb lower upper)%bool then Ok (mkDimn lower upper n name) else Err AssertFails.

(** geometry.py Patch: patch_index, level, dimensions *)
Record patch := mkPatch { p_index : Z; p_level : Z; p_dims : list dimension }.

(** os.path.join(a, b) *)
Definition join (a b : text) : text :=
  match b with
  | c :: _ => if Ascii.eqb c c_slash then b else
      match rev a with
      | [] => b
      | d :: _ => if Ascii.eqb d c_slash then a ++ b else a ++ [c_slash] ++ b
      end
  | [] => match rev a with
          | [] => b
          | d :: _ => if Ascii.eqb d c_slash then a ++ b else a ++ [c_slash] ++ b
          end
  end.

(** ascii.py:42-43, 53-54, 65-66, 79: the names [fort.t0000] ... as the writer builds them;
    [kind] is "t", "q", "a" or "pkl" *)
Definition file_name (path prefix : text) (kind : string) (frame : Z) : text :=
  if String.eqb kind "pkl"
  then join path (prefix ++ lit "." ++ lit kind) ++ zfill4 frame
  else join path (prefix ++ lit "." ++ lit kind ++ zfill4 frame).
(** ascii.py:152, 167, 209-210, 279: the same names as the reader builds them *)
Definition read_name (path prefix : text) (kind : string) (frame : Z) : text :=
  join path (prefix ++ lit "." ++ lit kind) ++ zfill4 frame.

(** ** Writing *)

(** a line of a header: a number, blanks, a label *)
Definition int_line (m : Z) (label : text) : text := fmt_5i m ++ repeat c_space 18 ++ label ++ [c_nl].
Definition float_line (x : Q) (label : text) : text := fmt_18_8e x ++ repeat c_space 5 ++ label ++ [c_nl].

(** ascii.py:84-94 write_patch_header *)
Definition patch_header (p : patch) : text :=
  int_line (p_index p) (lit "patch_number") ++
  int_line (p_level p) (lit "AMR_level") ++
  concat (map (fun d => int_line (d_n d) (lit "m" ++ d_name d)) (p_dims p)) ++
  concat (map (fun d => float_line (d_lower d) (d_name d ++ lit "low")) (p_dims p)) ++
  concat (map (fun d => float_line (d_delta d) (lit "d" ++ d_name d)) (p_dims p)) ++
  [c_nl].

(** [0; 1; ...; n-1] *)
Definition range (n : Z) : list Z := map Z.of_nat (seq 0 (Z.to_nat n)).

(** ascii.py:103-124: the nested loops of write_array.  [rns] are the numbers of cells with the outermost
    loop (the last dimension) first; [ix] are the indices of the loops already entered.  A blank line
    follows each round of every loop but the innermost one. *)
Fixpoint write_loops (q : field) (num_var : nat) (rns : list Z) (ix : list Z) : text :=
  match rns with
  | [] => concat (map (fun m => fmt_18_8e (q m ix)) (range (Z.of_nat num_var))) ++ [c_nl]
  | n :: rest =>
      concat (map (fun j => write_loops q num_var rest (j :: ix) ++
                            match rest with [] => [] | _ => [c_nl] end) (range n))
  end.
(** ascii.py:97-126 write_array *)
Definition write_array (p : patch) (q : field) (num_var : nat) : result text :=
  if ((1 <=? length (p_dims p)) && (length (p_dims p) <=? 3))%nat%bool
  then Ok (write_loops q num_var (rev (map d_n (p_dims p))) [])
  else Err BadDimension.

Section Files.
Context {D : Type}.

(** state.py State: patch, t, q with num_eqn components, p with mp components (None if not
    allocated), aux with num_aux components (None if absent or NaN), problem_data *)
Record state := mkState {
  s_patch : patch; s_t : Q;
  s_num_eqn : nat; s_q : field;
  s_mp : nat; s_p : option field;
  s_num_aux : nat; s_aux : option field;
  s_data : option D }.
(** solution.py Solution: states, and the number of dimensions of its domain *)
Record solution := mkSolution { so_states : list state; so_num_dim : nat }.

(** the numbers in a binary file are its contents *)
Inductive content := TextFile (s : text) | PickleFile (d : option D) | DataFile (l : list Q).
Definition files := text -> option content.
Definition text_eqb (a b : text) : bool := if list_eq_dec ascii_dec a b then true else false.
Definition store (fs : files) (name : text) (c : content) : files :=
  fun n => if text_eqb n name then Some c else fs n.

(** ascii.py:42-50 the contents of fort.t; solution.t, solution.num_eqn and solution.num_aux are those of
    the first state (solution.py:224-231 _get_base_state_attribute) *)
Definition t_file (s0 : state) (sol : solution) : text :=
  float_line (s_t s0) (lit "time") ++
  int_line (Z.of_nat (s_num_eqn s0)) (lit "num_eqn") ++
  int_line (Z.of_nat (length (so_states sol))) (lit "nstates") ++
  int_line (Z.of_nat (s_num_aux s0)) (lit "num_aux") ++
  int_line (Z.of_nat (so_num_dim sol)) (lit "num_dim") ++
  int_line 0 (lit "num_ghost") ++
  lit "ascii" ++ repeat c_space 18 ++ lit "file_format" ++ [c_nl].

(** one state after another *)
Fixpoint all_states (f : state -> result text) (ss : list state) : result text :=
  match ss with
  | [] => Ok []
  | s :: r => a <- f s ;; b <- all_states f r ;; Ok (a ++ b)
  end.
(** ascii.py:55-61: header and array of one state in fort.q.  Without p the loop fails on None.shape. *)
Definition q_part (write_p : bool) (s : state) : result text :=
  if write_p then
    match s_p s with
    | Some p => a <- write_array (s_patch s) p (s_mp s) ;; Ok (patch_header (s_patch s) ++ a)
    | None => Err BadType
    end
  else a <- write_array (s_patch s) (s_q s) (s_num_eqn s) ;; Ok (patch_header (s_patch s) ++ a).
(** ascii.py:67-69: header and array of one state in fort.a *)
Definition a_part (s : state) : result text :=
  match s_aux s with
  | Some a => b <- write_array (s_patch s) a (s_num_aux s) ;; Ok (patch_header (s_patch s) ++ b)
  | None => Err NotModelled
  end.

(** ascii.py:17-81 write.  When it raises, files already written are not described. *)
Definition write (fs : files) (path prefix : text) (frame : Z) (write_aux write_p : bool)
    (sol : solution) : result files :=
  match so_states sol with
  | [] => Err BadIndex
  | s0 :: _ =>
      let fs1 := store fs (file_name path prefix "t" frame) (TextFile (t_file s0 sol)) in
      q <- all_states (q_part write_p) (so_states sol) ;;
      let fs2 := store fs1 (file_name path prefix "q" frame) (TextFile q) in
      fs3 <- (if ((0 <? s_num_aux s0)%nat && write_aux)%bool
              then a <- all_states a_part (so_states sol) ;;
                   Ok (store fs2 (file_name path prefix "a" frame) (TextFile a))
              else Ok fs2) ;;
      Ok (store fs3 (file_name path prefix "pkl" frame) (PickleFile (s_data s0)))
  end.

(** ** Reading *)

(** an open text file: the lines not yet read *)
Definition handle := list text.

(** util.py:552-574 read_data_line before the conversion: the first word of the next non-blank line *)
Fixpoint data_line (h : handle) : result (text * handle) :=
  match h with
  | [] => Err EndOfFile
  | l :: r => match words l with w :: _ => Ok (w, r) | [] => data_line r end
  end.
Definition read_int (h : handle) : result (Z * handle) :=
  '(w, h') <- data_line h ;; match parse_int w with Some m => Ok (m, h') | None => Err BadValue end.
Definition read_float (h : handle) : result (Q * handle) :=
  '(w, h') <- data_line h ;; match parse_float w with Some x => Ok (x, h') | None => Err BadValue end.

(** [k] values, one after another *)
Fixpoint read_many {A} (f : handle -> result (A * handle)) (k : nat) (h : handle) : result (list A * handle) :=
  match k with
  | O => Ok ([], h)
  | S k' => '(a, h1) <- f h ;; '(l, h2) <- read_many f k' h1 ;; Ok (a :: l, h2)
  end.

(** open(name, 'r'); other contents are no text *)
Definition open_text (fs : files) (name : text) : result handle :=
  match fs name with
  | Some (TextFile s) => Ok (lines s)
  | Some _ => Err BadValue
  | None => Err FileMissing
  end.

(** ascii.py:242-296 read_t.  An exception while reading num_ghost or file_format is caught; a line whose
    conversion failed has been consumed. *)
Record t_data := mkT { f_t : Q; f_num_eqn : Z; f_nstates : Z; f_num_aux : Z; f_num_dim : Z;
                       f_num_ghost : Z; f_format : option text }.
Definition read_t (fs : files) (path prefix : text) (frame : Z) : result t_data :=
  h <- open_text fs (read_name path prefix "t" frame) ;;
  '(t, h) <- read_float h ;;
  '(num_eqn, h) <- read_int h ;;
  '(nstates, h) <- read_int h ;;
  '(num_aux, h) <- read_int h ;;
  '(num_dim, h) <- read_int h ;;
  let '(num_ghost, h) := match data_line h with
                         | Ok (w, h') => (match parse_int w with Some m => m | None => 0%Z end, h')
                         | Err _ => (0%Z, [])
                         end in
  let fmt := match data_line h with Ok (w, _) => Some w | Err _ => None end in
  Ok (mkT t num_eqn nstates num_aux num_dim num_ghost fmt).

(** ascii.py:327-332: the list of dimensions; there are only three names *)
Fixpoint make_dims (names : list text) (ns : list Z) (lows ds : list Q) : result (list dimension) :=
  match ns, lows, ds with
  | n :: ns', lo :: lows', d :: ds' =>
      match names with
      | name :: names' =>
          x <- new_dimension lo (lo + inject_Z n * d) n name ;;
          r <- make_dims names' ns' lows' ds' ;;
          Ok (x :: r)
      | [] => Err BadIndex
      end
  | _, _, _ => Ok []
  end.

(** ascii.py:300-339 read_patch_header *)
Definition read_patch_header (num_dim : nat) (h : handle) : result (patch * handle) :=
  '(index, h) <- read_int h ;;
  '(level, h) <- read_int h ;;
  '(ns, h) <- read_many read_int num_dim h ;;
  '(lows, h) <- read_many read_float num_dim h ;;
  '(ds, h) <- read_many read_float num_dim h ;;
  let h := tl h in
  dims <- make_dims [lit "x"; lit "y"; lit "z"] ns lows ds ;;
  Ok (mkPatch index level dims, h).

(** ascii.py:362-367: collects the words of the next lines until there are enough for one cell *)
Fixpoint cell_words (num_var : nat) (acc : list text) (h : handle) {struct h} : result (list text * handle) :=
  if (num_var <=? length acc)%nat then Ok (acc, h)
  else match h with
       | [] => Err BadPatchData
       | l :: r => cell_words num_var (acc ++ words l) r
       end.
Fixpoint floats (ws : list text) : option (list Q) :=
  match ws with
  | [] => Some []
  | w :: r => match parse_float w, floats r with Some x, Some l => Some (x :: l) | _, _ => None end
  end.
(** ascii.py:362-369: the values of one cell *)
Definition read_cell (num_var : nat) (h : handle) : result (list Q * handle) :=
  '(ws, h') <- cell_words num_var [] h ;;
  match floats (firstn num_var ws) with Some l => Ok (l, h') | None => Err BadPatchData end.

(** ascii.py:359-395: the nested loops of read_array, outermost first.  The result gives the values of a
    cell from its indices, outermost first.  Simplification: the array is assembled from the rows read
    instead of assigning its entries one at a time. *)
Fixpoint read_loops (num_var : nat) (rns : list Z) (h : handle) : result ((list Z -> list Q) * handle) :=
  match rns with
  | [] => '(vals, h') <- read_cell num_var h ;; Ok (fun _ => vals, h')
  | n :: rest =>
      '(blocks, h') <- read_many (fun h0 =>
           '(b, h1) <- read_loops num_var rest h0 ;;
           Ok (b, match rest with [] => h1 | _ => tl h1 end)) (Z.to_nat n) h ;;
      Ok (fun ix => match ix with
                    | i :: ix' => nth (Z.to_nat i) blocks (fun _ => []) ix'
                    | [] => []
                    end, h')
  end.
(** ascii.py:342-406 read_array: every exception becomes an IOError *)
Definition read_array (p : patch) (num_var : nat) (h : handle) : result (field * handle) :=
  if ((1 <=? length (p_dims p)) && (length (p_dims p) <=? 3))%nat%bool
  then match read_loops num_var (rev (map d_n (p_dims p))) h with
       | Ok (f, h') => Ok (fun m ix => nth (Z.to_nat m) (f (rev ix)) 0, h')
       | Err _ => Err BadPatchData
       end
  else Err BadPatchData.

(** ascii.py:178-200: one round of the loop over the patches *)
Definition read_state (f : t_data) (data : option D) (h : handle) : result (state * handle) :=
  '(p, h) <- read_patch_header (Z.to_nat (f_num_dim f)) h ;;
  if (f_num_eqn f <? 0)%Z then Err BadValue else
  '(q, h) <- read_array p (Z.to_nat (f_num_eqn f)) h ;;
  Ok (mkState p (f_t f) (Z.to_nat (f_num_eqn f)) q 0 None (Z.to_nat (f_num_aux f)) None data, h).

(** ascii.py:203-206, 228-237: the checks of the header in the aux file *)
Definition abs_tol : Q := 1 # (10 ^ 8).
Definition rel_tol : Q := 1 # (10 ^ 15).
Definition close_to (a b : Q) : bool := qleb (Qabs (a - b)) (abs_tol + rel_tol * Qabs a).
Fixpoint same_dims (ds es : list dimension) : result unit :=
  match ds, es with
  | [], _ => Ok tt
  | d :: ds', e :: es' =>
      if ((d_n d =? d_n e)%Z && close_to (d_lower d) (d_lower e) && close_to (d_delta d) (d_delta e))%bool
      then same_dims ds' es' else Err AssertFails
  | _ :: _, [] => Err BadIndex
  end.
(** ascii.py:222-239: the loop over all states of the solution, filling their aux arrays *)
Fixpoint read_aux_states (num_dim : nat) (num_aux : nat) (ss : list state) (h : handle) : result (list state) :=
  match ss with
  | [] => Ok []
  | s :: r =>
      '(p, h) <- read_patch_header num_dim h ;;
      if negb (p_level (s_patch s) =? p_level p)%Z then Err AssertFails else
      _ <- same_dims (p_dims (s_patch s)) (p_dims p) ;;
      '(a, h) <- read_array (s_patch s) num_aux h ;;
      l <- read_aux_states num_dim num_aux r h ;;
      Ok (mkState (s_patch s) (s_t s) (s_num_eqn s) (s_q s) (s_mp s) (s_p s) (s_num_aux s) (Some a) (s_data s) :: l)
  end.

(** ascii.py:129-239 read into a solution that already has the states [prior] (none for a new Solution).
    A frame without states is an error value. *)
Definition read (fs : files) (path prefix : text) (frame : Z) (read_aux : bool)
    (prior : list state) : result solution :=
  data <- match fs (read_name path prefix "pkl" frame) with
          | Some (PickleFile d) => Ok d
          | Some _ => Err BadValue
          | None => Ok None
          end ;;
  f <- read_t fs path prefix frame ;;
  h <- open_text fs (read_name path prefix "q" frame) ;;
  '(new, _) <- read_many (read_state f data) (Z.to_nat (f_nstates f)) h ;;
  match new with
  | [] => Err BadIndex
  | n0 :: _ =>
      let states := prior ++ new in
      let num_dim := length (p_dims (s_patch n0)) in
      let first := match states with s :: _ => s | [] => n0 end in
      if ((0 <? s_num_aux first)%nat && read_aux)%bool then
        let found := match fs (read_name path prefix "a" frame) with
                     | Some _ => Some (read_name path prefix "a" frame)
                     | None => match fs (read_name path prefix "a" 0) with
                               | Some _ => Some (read_name path prefix "a" 0)
                               | None => None
                               end
                     end in
        match found with
        | None => Ok (mkSolution states num_dim)
        | Some name =>
            h <- open_text fs name ;;
            ss <- read_aux_states (Z.to_nat (f_num_dim f)) (Z.to_nat (f_num_aux f)) states h ;;
            Ok (mkSolution ss num_dim)
        end
      else Ok (mkSolution states num_dim)
  end.

(** solution.py:253-302 Solution.write for file_format='ascii'; [expand] is
    os.path.expandvars(os.path.expanduser(path)) *)
Definition solution_write (expand : text -> text) (fs : files) (path prefix : text) (frame : Z)
    (write_aux write_p : bool) (sol : solution) : result files :=
  write fs (expand path) prefix frame write_aux write_p sol.

(** solution.py:305-364 Solution.read and 367-392 get_read_func: the format named in the header wins over
    the argument; the header is looked for in the path as given, the frame in the expanded path.  Formats
    other than ascii are not modelled here. *)
Definition solution_read (expand : text -> text) (fs : files) (path prefix : text) (frame : Z)
    (file_format : option text) (read_aux : bool) (prior : list state) : result solution :=
  let fmt := match read_t fs path prefix frame with
             | Ok f => match f_format f with Some w => Some w | None => file_format end
             | Err _ => file_format
             end in
  match fmt with
  | None => Err BadType
  | Some w =>
      if text_eqb (firstn 6 w) (lit "binary") then Err NotModelled
      else if text_eqb w (lit "ascii") then read fs (expand path) prefix frame read_aux prior
      else if (text_eqb w (lit "hdf") || text_eqb w (lit "hdf5") || text_eqb w (lit "petsc")
               || text_eqb w (lit "forestclaw"))%bool then Err NotModelled
      else Err BadValue
  end.
End Files.
