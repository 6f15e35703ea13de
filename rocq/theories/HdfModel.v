(** HDF5 output: src/pyclaw/fileio/hdf5.py and the parts of src/pyclaw/solution.py it is reached through.

    h5py is modelled by its contract: a file holds named groups, a group holds named attributes and named arrays;
    creating a group that exists raises; iterating over a file gives the groups in the order of their names (the
    default of h5py, byte order); what has been stored is read back unchanged. Compression and the other options of
    create_dataset change the storage only and are left out.
    The contents of an array made by np.empty are not determined: None. *)
From Coq Require Import Ascii String.
From Verif Require Import Base FormatModel.
Open Scope Q_scope.

Inductive error :=
| GroupExists      (* ValueError of create_group *)
| NoAttribute      (* KeyError *)
| BadShape         (* ValueError of reshape *)
| BadDimension     (* AssertionError of Dimension *)
| NoFile           (* OSError of h5py.File *)
| NoArray          (* state.p is None: create_dataset raises TypeError *)
| NoStates.        (* solution.t of a solution without states *)
Inductive result (A : Type) := Ok (a : A) | Err (e : error).
Arguments Ok {A} a.
Arguments Err {A} e.
Definition bind {A B} (r : result A) (f : A -> result B) : result B :=
  match r with Ok a => f a | Err e => Err e end.
Notation "x <- r ;; k" := (bind r (fun x => k)) (at level 61, r at next level, right associativity).

(** An array: shape and elements, first index fastest *)
Record array := mkArray { a_shape : list Z; a_data : option (list Q) }.
Definition size (shape : list Z) : Z := fold_right Z.mul 1%Z shape.

Inductive attr := ANum (x : Q) | AInt (n : Z) | AText (s : text) | ANames (l : list text).
Record group := mkGroup { g_attrs : list (text * attr); g_sets : list (text * array) }.
Definition file := list (text * group).

Definition text_eqb (a b : text) : bool := if list_eq_dec ascii_dec a b then true else false.
Fixpoint assoc {A} (k : text) (l : list (text * A)) : option A :=
  match l with
  | [] => None
  | (k', v) :: r => if text_eqb k k' then Some v else assoc k r
  end.
(** The order of names *)
Fixpoint text_ltb (a b : text) : bool :=
  match a, b with
  | _, [] => false
  | [], _ :: _ => true
  | x :: a', y :: b' =>
      if (N_of_ascii x <? N_of_ascii y)%N then true
      else if (N_of_ascii y <? N_of_ascii x)%N then false
      else text_ltb a' b'
  end.
Fixpoint add_group (name : text) (g : group) (f : file) : result file :=
  match f with
  | [] => Ok [(name, g)]
  | (n, g') :: r =>
      if text_ltb name n then Ok ((name, g) :: f)
      else if text_ltb n name then r' <- add_group name g r ;; Ok ((n, g') :: r')
      else Err GroupExists
  end.

(** geometry.py Dimension: lower, upper, num_cells, name, units *)
Record dim := mkDim { d_lower : Q; d_upper : Q; d_n : Z; d_name : text; d_units : option text }.
Definition d_delta (d : dim) : Q := (d_upper d - d_lower d) / inject_Z (d_n d).
(** geometry.py:625-630 the checks of the constructor *)
Definition new_dim (lower upper : Q) (n : Z) (name : text) : result dim :=
  if ((0 <? n)%Z && qltb lower upper)%bool then Ok (mkDim lower upper n name None) else Err BadDimension.
(** geometry.py Patch: patch_index and level may have been set to None *)
Record patch := mkPatch { p_index : option Z; p_level : option Z; p_dims : list dim }.
(** state.py State *)
Record state := mkState { s_patch : patch; s_t : Q; s_q : array; s_p : option array; s_aux : option array }.
(** state.py:80-92 num_eqn, num_aux *)
Definition rows (a : array) : Z := hd 0%Z (a_shape a).
Definition num_aux (s : state) : Z := match s_aux s with Some a => rows a | None => 0%Z end.

(** '%s.%s' % (dim.name,attr) *)
Definition key (name : text) (a : string) : text := name ++ c_dot :: lit a.
(** hdf5.py:125-133: the attributes of a dimension, in the order in which they are set *)
Definition dim_attrs (d : dim) : list (text * attr) :=
  [(key (d_name d) "num_cells", AInt (d_n d)); (key (d_name d) "lower", ANum (d_lower d));
   (key (d_name d) "delta", ANum (d_delta d)); (key (d_name d) "upper", ANum (d_upper d))]
  ++ match d_units d with Some u => [(key (d_name d) "units", AText u)] | None => [] end.
Definition option_attr (k : string) (v : option Z) : list (text * attr) :=
  match v with Some n => [(lit k, AInt n)] | None => [] end.
(** hdf5.py:111-133. A Patch has no attribute num_ghost. *)
Definition attrs_of (s : state) : list (text * attr) :=
  [(lit "t", ANum (s_t s)); (lit "num_eqn", AInt (rows (s_q s))); (lit "num_aux", AInt (num_aux s))]
  ++ option_attr "patch_index" (p_index (s_patch s)) ++ option_attr "level" (p_level (s_patch s))
  ++ [(lit "dimensions", ANames (map d_name (p_dims (s_patch s))))]
  ++ flat_map dim_attrs (p_dims (s_patch s)).
(** Setting attributes one after the other: the last value of a name counts *)
Definition set_attrs (l : list (text * attr)) : list (text * attr) := rev l.

(** 'patch%s' % patch.patch_index *)
Definition group_name (s : state) : text :=
  lit "patch" ++ match p_index (s_patch s) with Some n => str_int n | None => lit "None" end.

(** hdf5.py:105-141: one state *)
Definition group_of (write_aux write_p : bool) (s : state) : result group :=
  q <- (if write_p then match s_p s with Some a => Ok a | None => Err NoArray end else Ok (s_q s)) ;;
  Ok (mkGroup (set_attrs (attrs_of s))
        ((lit "q", q) ::
         match s_aux s with
         | Some a => if (write_aux && (0 <? num_aux s)%Z)%bool then [(lit "aux", a)] else []
         | None => []
         end)).
(** hdf5.py:103-141: the file is new ('w'), so that what it held before is gone *)
Fixpoint write_states (write_aux write_p : bool) (l : list state) (f : file) : result file :=
  match l with
  | [] => Ok f
  | s :: r =>
      g <- group_of write_aux write_p s ;;
      f' <- add_group (group_name s) g f ;;
      write_states write_aux write_p r f'
  end.

Definition files := text -> option file.
(** os.path.join(path,'%s%s.hdf' % (file_prefix,str(frame).zfill(4))); the path is a directory name without a final
    slash and the prefix does not start with one *)
Definition file_name (path prefix : text) (frame : Z) : text :=
  path ++ c_slash :: prefix ++ zfill4 frame ++ lit ".hdf".
Definition write (fs : files) (path prefix : text) (frame : Z) (write_aux write_p : bool) (l : list state) : result files :=
  f <- write_states write_aux write_p l [] ;;
  Ok (fun n => if text_eqb n (file_name path prefix frame) then Some f else fs n).

(** hdf5.py:171-187 *)
Definition num_attr (k : text) (g : group) : result Q :=
  match assoc k (g_attrs g) with Some (ANum x) => Ok x | _ => Err NoAttribute end.
Definition int_attr (k : text) (g : group) : result Z :=
  match assoc k (g_attrs g) with Some (AInt n) => Ok n | _ => Err NoAttribute end.
Definition read_dim (g : group) (name : text) : result dim :=
  lower <- num_attr (key name "lower") g ;;
  upper <- num_attr (key name "upper") g ;;
  n <- int_attr (key name "num_cells") g ;;
  d <- new_dim lower upper n name ;;
  Ok (match assoc (key name "units") (g_attrs g) with
      | Some (AText (c :: u)) => mkDim (d_lower d) (d_upper d) (d_n d) (d_name d) (Some (c :: u))
      | _ => d                                   (* an empty text is false *)
      end).
Fixpoint read_dims (g : group) (names : list text) : result (list dim) :=
  match names with
  | [] => Ok []
  | n :: r => d <- read_dim g n ;; ds <- read_dims g r ;; Ok (d :: ds)
  end.
(** state.py:330-335 new_array: None for no components *)
Definition new_array (n : Z) (dims : list dim) : option array :=
  if (n =? 0)%Z then None else Some (mkArray (n :: map d_n dims) None).
(** a.ravel(order='F').reshape(shape,order='F') *)
Definition reshaped (a : array) (shape : list Z) : result array :=
  if (size (a_shape a) =? size shape)%Z then Ok (mkArray shape (a_data a)) else Err BadShape.
(** hdf5.py:168-204: one group *)
Definition read_group (read_aux : bool) (g : group) : result state :=
  match assoc (lit "dimensions") (g_attrs g) with
  | Some (ANames names) =>
      ds <- read_dims g names ;;
      t <- num_attr (lit "t") g ;;
      n <- int_attr (lit "num_eqn") g ;;
      i <- int_attr (lit "patch_index") g ;;
      l <- int_attr (lit "level") g ;;
      m <- int_attr (lit "num_aux") g ;;
      match new_array n ds, assoc (lit "q") (g_sets g) with
      | Some q0, Some q1 =>
          q <- reshaped q1 (a_shape q0) ;;
          aux <- (match (if read_aux then assoc (lit "aux") (g_sets g) else None), new_array m ds with
                  | Some a, Some a0 => a' <- reshaped a (a_shape a0) ;; Ok (Some a')
                  | Some a, None => Err NoAttribute          (* state.aux is None *)
                  | None, a0 => Ok a0
                  end) ;;
          Ok (mkState (mkPatch (Some i) (Some l) ds) t q None aux)
      | _, _ => Err NoAttribute
      end
  | _ => Err NoAttribute
  end.
Fixpoint read_groups (read_aux : bool) (f : file) : result (list state) :=
  match f with
  | [] => Ok []
  | (_, g) :: r => s <- read_group read_aux g ;; ss <- read_groups read_aux r ;; Ok (s :: ss)
  end.
(** hdf5.py:161-207: the states are appended to those of the solution *)
Definition read (fs : files) (path prefix : text) (frame : Z) (read_aux : bool) (old : list state) : result (list state) :=
  match fs (file_name path prefix frame) with
  | None => Err NoFile
  | Some f => ss <- read_groups read_aux f ;; Ok (old ++ ss)
  end.

(** solution.py:280-297 Solution.write with file_format='hdf5' and 341-364 Solution.read with file_format='hdf5' in a
    directory without ASCII headers: without a prefix, write uses the default of hdf5.write, read its own. *)
Definition solution_write (fs : files) (path : text) (prefix : option text) (frame : Z) (write_aux : bool) (l : list state) : result files :=
  fs' <- write fs path (match prefix with Some p => p | None => lit "claw" end) frame write_aux false l ;;
  match l with [] => Err NoStates | _ => Ok fs' end.      (* the log message uses self.t *)
(** The argument file_prefix of read: left out (then 'fort'), None (then the default of hdf5.read) or a text. *)
Inductive prefix_arg := Omitted | NoPrefix | Prefix (p : text).
Definition solution_read (fs : files) (path : text) (prefix : prefix_arg) (frame : Z) (read_aux : bool) : result (list state) :=
  read fs path (match prefix with Omitted => lit "fort" | NoPrefix => lit "claw" | Prefix p => p end) frame read_aux [].

(** solution.py:367-393 get_read_func and 396-408 get_write_func of pyclaw.Solution: the module whose function is
    returned; ValueError if none. The package fileio holds ascii, binary, claw_vtk, hdf5 and netcdf, of which binary
    has no write. *)
Definition read_module (f : text) : option text :=
  if text_eqb (firstn 6 f) (lit "binary") then Some (lit "binary")
  else if text_eqb f (lit "ascii") then Some (lit "ascii")
  else if (text_eqb f (lit "hdf") || text_eqb f (lit "hdf5"))%bool then Some (lit "hdf5")
  else if text_eqb f (lit "petsc") then Some (lit "petsc")
  else if text_eqb f (lit "forestclaw") then Some (lit "forestclaw")
  else None.
Definition write_module (f : text) : option text :=
  if text_eqb f (lit "forestclaw") then Some (lit "forestclaw")
  else if text_eqb f (lit "vtk") then Some (lit "claw_vtk")
  else if existsb (text_eqb f) [lit "ascii"; lit "hdf5"; lit "netcdf"; lit "claw_vtk"] then Some f
  else None.
