(** PETSc output: src/petclaw/fileio/petsc.py.

    A file is a list of records in the order in which they were written: pickled dictionaries in the .pkl file, vectors in
    the files of the PETSc viewers. PETSc is modelled by its contract: a viewer opened for writing empties the file, view
    appends the global vector (its elements in the natural order of the cells, whatever the number of processes), load
    gives the next vector and fails when there is none or its length is not that of the vector loaded into. Loading works
    for some formats only ([loadable], an argument). The .info files of PETSc are left out.
    All that write does to the files is a list of operations, so that a run may stop after any of them.
    Problem data and mappings are values of arbitrary types. *)
From Coq Require Import Ascii String.
From Verif Require Import Base FormatModel.
Open Scope Q_scope.

Inductive error :=
| NoFile           (* IOError, or an error of PETSc, when a file to be read does not exist *)
| Clobber          (* IOError 'Cowardly refusing to clobber' *)
| NoViewer         (* IOError 'PETSc has no viewer for the output format' *)
| EndOfFile        (* EOFError of pickle.load *)
| BadFile          (* a record of another kind, a file of another format *)
| NoVector         (* load: no vector left *)
| BadLength        (* load: vector of another length *)
| BadDimension     (* AssertionError of Dimension, IndexError *)
| NoP              (* state.mp has not been set *)
| NoArray          (* gpVec or gauxVec of a later state is missing: AttributeError *)
| NoStates.        (* attribute of a solution without states *)

Section Data.
Context {D M : Type}.

(** geometry.py Dimension *)
Record dim := mkDim { d_lower : Q; d_upper : Q; d_n : Z; d_name : text }.
Definition d_delta (d : dim) : Q := (d_upper d - d_lower d) / inject_Z (d_n d).
(** geometry.py:625-630 *)
Definition dim_ok (d : dim) : bool := ((0 <? d_n d)%Z && qltb (d_lower d) (d_upper d))%bool.
(** petclaw State: number of components and elements of the global vectors; the contents of a new vector of n
    elements are [fresh n], an argument *)
Record state := mkState {
  s_level : Z; s_dims : list dim; s_t : Q; s_problem : D; s_map : M;
  s_neqn : Z; s_q : list Q; s_p : option (Z * list Q); s_aux : option (Z * list Q) }.
Definition cells (ds : list dim) : Z := fold_right (fun d n => (d_n d * n)%Z) 1%Z ds.
Definition s_naux (s : state) : Z := match s_aux s with Some (n, _) => n | None => 0%Z end.

(** petsc.py:60-67: the first dictionary *)
Record header := mkHeader {
  h_t : Q; h_neqn : Z; h_nstates : nat; h_naux : Z; h_ndim : nat; h_write_aux : bool; h_problem : D; h_map : M; h_format : text }.
(** petsc.py:73-76: the dictionary of a patch *)
Record pmeta := mkPmeta { m_level : Z; m_names : list text; m_lower : list Q; m_n : list Z; m_delta : list Q }.

Inductive record := RHeader (h : header) | RPatch (p : pmeta) | RVec (v : list Q).
Inductive kind := Pickle | Viewer (fmt : text).
Definition file := (kind * list record)%type.
Definition files := text -> option file.

Definition text_eqb (a b : text) : bool := if list_eq_dec ascii_dec a b then true else false.
Definition set_file (name : text) (f : file) (fs : files) : files := fun n => if text_eqb n name then Some f else fs n.

(** petsc.py:263-274 set_filenames; the path is a directory name without a final slash, the prefix does not start with
    one. The format 'vtk' is compared as it is written, for the viewers in lower case. *)
Definition meta_name (path prefix : text) (frame : Z) : text := path ++ c_slash :: prefix ++ lit ".pkl" ++ zfill4 frame.
Definition q_name (path prefix fmt : text) (frame : Z) : text :=
  if text_eqb fmt (lit "vtk") then path ++ c_slash :: prefix ++ zfill4 frame ++ lit ".vtk"
  else path ++ c_slash :: prefix ++ lit ".ptc" ++ zfill4 frame.
Definition aux_name (path prefix : text) (frame : Z) : text := path ++ c_slash :: prefix ++ lit "_aux.ptc" ++ zfill4 frame.

Definition lower_char (c : ascii) : ascii :=
  let n := N_of_ascii c in if ((65 <=? n) && (n <=? 90))%N%bool then ascii_of_N (n + 32) else c.
Definition lower_case (t : text) : text := map lower_char t.
(** petsc.py:239-260 set_up_viewers: the formats that have a viewer *)
Definition has_viewer (fmt : text) : bool :=
  existsb (text_eqb (lower_case fmt)) [lit "ascii"; lit "vtk"; lit "hdf5"; lit "netcdf"; lit "binary"].

Inductive op := Truncate (name : text) (k : kind) | Append (name : text) (r : record).
Definition exec (fs : files) (o : op) : files :=
  match o with
  | Truncate name k => set_file name (k, []) fs
  | Append name r => match fs name with Some (k, l) => set_file name (k, l ++ [r]) fs | None => fs end
  end.
Definition execs (os : list op) (fs : files) : files := fold_left exec os fs.

(** petsc.py:73-76; patch.name, lower_global, num_cells_global and delta are lists over the dimensions *)
Definition meta_of (s : state) : pmeta :=
  mkPmeta (s_level s) (map d_name (s_dims s)) (map d_lower (s_dims s)) (map d_n (s_dims s)) (map d_delta (s_dims s)).
(** petsc.py:84-94: the vectors, state by state; an error ends the loop *)
Fixpoint view_states (qn : text) (an : option text) (write_p : bool) (l : list state) : list op * option error :=
  match l with
  | [] => ([], None)
  | s :: r =>
      match (if write_p then option_map snd (s_p s) else Some (s_q s)) with
      | None => ([], Some NoArray)
      | Some v =>
          match an with
          | None => let (os, e) := view_states qn an write_p r in (Append qn (RVec v) :: os, e)
          | Some a =>
              match s_aux s with
              | Some (_, w) =>
                  let (os, e) := view_states qn an write_p r in (Append qn (RVec v) :: Append a (RVec w) :: os, e)
              | _ => ([Append qn (RVec v)], Some NoArray)
              end
          end
      end
  end.
(** petsc.py:42-99 write: the operations and the error that ends them, if any. The attributes of a solution are those of
    its first state (solution.py __getattr__). *)
Definition write_ops (fs : files) (path prefix : text) (frame : Z) (fmt : text) (clobber write_aux write_p : bool)
    (l : list state) : list op * option error :=
  match l with
  | [] => ([], Some NoStates)
  | s :: _ =>
      let do_aux := (write_aux && negb (s_naux s =? 0)%Z)%bool in
      let mn := meta_name path prefix frame in
      let qn := q_name path prefix fmt frame in
      let an := aux_name path prefix frame in
      let exists_file n := match fs n with Some _ => true | None => false end in
      if (negb clobber && (exists_file mn || exists_file qn || (do_aux && exists_file an)))%bool then ([], Some Clobber)
      else
        match (if write_p then option_map fst (s_p s) else Some (s_neqn s)) with
        | None => ([Truncate mn Pickle], Some NoP)
        | Some neqn =>
            let h := mkHeader (s_t s) neqn (length l) (s_naux s) (length (s_dims s)) do_aux (s_problem s) (s_map s) fmt in
            let metas := Truncate mn Pickle :: Append mn (RHeader h) :: map (fun s => Append mn (RPatch (meta_of s))) l in
            if has_viewer fmt then
              let v := Viewer (lower_case fmt) in
              let (os, e) := view_states qn (if do_aux then Some an else None) write_p l in
              (metas ++ Truncate qn v :: (if do_aux then [Truncate an v] else []) ++ os, e)
            else (metas, Some NoViewer)
        end
  end.
Definition write (fs : files) (path prefix : text) (frame : Z) (fmt : text) (clobber write_aux write_p : bool)
    (l : list state) : files * option error :=
  let (os, e) := write_ops fs path prefix frame fmt clobber write_aux write_p l in (execs os fs, e).

Inductive result (A : Type) := Ok (a : A) | Err (e : error).
Arguments Ok {A} a.
Arguments Err {A} e.
Definition bind {A B} (r : result A) (f : A -> result B) : result B :=
  match r with Ok a => f a | Err e => Err e end.
Notation "x <- r ;; k" := (bind r (fun x => k)) (at level 61, r at next level, right associativity).

Variable loadable : text -> bool.
Variable fresh : Z -> list Q.

(** pickle.load *)
Definition next_dict (l : list record) : result (record * list record) :=
  match l with [] => Err EndOfFile | r :: t => Ok (r, t) end.
(** Vec.load into a vector of n elements *)
Definition next_vec (n : Z) (l : list record) : result (list Q * list record) :=
  match l with
  | RVec v :: t => if (Z.of_nat (length v) =? n)%Z then Ok (v, t) else Err BadLength
  | _ :: _ => Err BadFile
  | [] => Err NoVector
  end.
(** petsc.py:169-172 *)
Fixpoint read_dims (ndim : nat) (names : list text) (lower : list Q) (n : list Z) (delta : list Q) : result (list dim) :=
  match ndim with
  | O => Ok []
  | S k =>
      match names, lower, n, delta with
      | nm :: names', a :: lower', c :: n', d :: delta' =>
          let x := mkDim a (a + inject_Z c * d) c nm in
          if dim_ok x then xs <- read_dims k names' lower' n' delta' ;; Ok (x :: xs) else Err BadDimension
      | _, _, _, _ => Err BadDimension
      end
  end.
(** petsc.py:158-191: one patch after the other; the files of dictionaries, q and (if read) aux *)
Fixpoint read_states (h : header) (n : nat) (metas qs : list record) (auxs : option (list record)) : result (list state) :=
  match n with
  | O => Ok []
  | S k =>
      r <- next_dict metas ;;
      match fst r with
      | RPatch m =>
          ds <- read_dims (h_ndim h) (m_names m) (m_lower m) (m_n m) (m_delta m) ;;
          v <- next_vec (h_neqn h * cells ds) qs ;;
          w <- match auxs with
               | None => Ok (if (0 <? h_naux h)%Z then Some (h_naux h, fresh (h_naux h * cells ds)) else None, None)
               | Some l => if (0 <? h_naux h)%Z
                           then (x <- next_vec (h_naux h * cells ds) l ;; Ok (Some (h_naux h, fst x), Some (snd x)))
                           else Err NoArray
               end ;;
          ss <- read_states h k (snd r) (snd v) (snd w) ;;
          Ok (mkState (m_level m) ds (h_t h) (h_problem h) (h_map h) (h_neqn h) (fst v) None (fst w) :: ss)
      | _ => Err BadFile
      end
  end.
(** petsc.py:154-156 and 239-260: a viewer for reading *)
Definition open_viewer (fs : files) (name fmt : text) : result (list record) :=
  if has_viewer fmt then
    match fs name with
    | Some (Viewer f, l) => if (text_eqb f (lower_case fmt) && loadable f)%bool then Ok l else Err BadFile
    | Some (Pickle, _) => Err BadFile
    | None => Err NoFile
    end
  else Err NoViewer.
(** petsc.py:124-194 read into a new solution. The file of aux is that of the frame, or else that of frame 0; with neither
    there is a warning and aux is not read. *)
Definition aux_file (fs : files) (path prefix : text) (frame : Z) : text :=
  match fs (aux_name path prefix frame) with Some _ => aux_name path prefix frame | None => aux_name path prefix 0 end.
Definition read (fs : files) (path prefix : text) (frame : Z) (fmt : text) (read_aux : bool) : result (list state) :=
  match fs (meta_name path prefix frame) with
  | None => Err NoFile
  | Some (Viewer _, _) => Err BadFile
  | Some (Pickle, l) =>
      r <- next_dict l ;;
      match fst r with
      | RHeader h =>
          let an := aux_file fs path prefix frame in
          let with_aux := (read_aux && match fs an with Some _ => true | None => false end)%bool in
          qs <- open_viewer fs (q_name path prefix fmt frame) fmt ;;
          auxs <- (if with_aux then x <- open_viewer fs an fmt ;; Ok (Some x) else Ok None) ;;
          read_states h (h_nstates h) (snd r) qs auxs
      | _ => Err BadFile
      end
  end.
(** petsc.py:215-236 read_t: t, num_eqn, nstates, num_aux, num_dim *)
Definition read_t (fs : files) (path prefix : text) (frame : Z) : result (Q * Z * nat * Z * nat) :=
  match fs (meta_name path prefix frame) with
  | None => Err NoFile
  | Some (_, l) =>
      r <- next_dict l ;;
      match fst r with
      | RHeader h => Ok (h_t h, h_neqn h, h_nstates h, h_naux h, h_ndim h)
      | _ => Err BadFile
      end
  end.
End Data.
Arguments Ok {A} a.
Arguments Err {A} e.
