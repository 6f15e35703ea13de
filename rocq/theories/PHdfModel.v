(** HDF5 frames of parallel runs: src/petclaw/fileio/hdf5.py with src/petclaw/geometry.py (Patch) and src/petclaw/state.py
    (q, p, aux).

    All processes run the same program on a common file.  By the contract of parallel h5py, groups, attributes and arrays
    are created once, each process stores into its part of an array, and every process can read the whole file after it has
    been closed.  PETSc assigns to every process a box of cells (one interval per dimension); which boxes there are is an
    argument.  For one patch, [(b, s)] is the box of a process and the state it holds: the geometry is that of the whole
    patch, the arrays are those of the box. *)
From Coq Require Import Ascii String.
From Verif Require Import Base FormatModel HdfModel.
Open Scope Q_scope.

Definition box := list (Z * Z).
Definition dstate := list (box * state).

(** ** Arrays, first index fastest (as in HdfModel) *)
Definition zupto (n : Z) : list Z := map Z.of_nat (seq 0 (Z.to_nat n)).
Fixpoint indices (shape : list Z) : list (list Z) :=
  match shape with
  | [] => [[]]
  | n :: s => flat_map (fun ix => map (fun i => i :: ix) (zupto n)) (indices s)
  end.
Fixpoint pos (shape ix : list Z) : Z :=
  match shape, ix with
  | n :: s, i :: r => (i + n * pos s r)%Z
  | _, _ => 0%Z
  end.
Definition at_ (shape : list Z) (l : list Q) (ix : list Z) : Q := nth (Z.to_nat (pos shape ix)) l 0.
Definition build (shape : list Z) (f : list Z -> Q) : list Q := map f (indices shape).

Fixpoint inside (b : box) (ix : list Z) : bool :=
  match b, ix with
  | [], [] => true
  | (lo, hi) :: b, i :: ix => ((lo <=? i)%Z && (i <? hi)%Z && inside b ix)%bool
  | _, _ => false
  end.
Fixpoint less (b : box) (ix : list Z) : list Z :=
  match b, ix with (lo, _) :: b, i :: ix => (i - lo)%Z :: less b ix | _, _ => [] end.
Fixpoint plus (b : box) (ix : list Z) : list Z :=
  match b, ix with (lo, _) :: b, i :: ix => (i + lo)%Z :: plus b ix | _, _ => [] end.
Definition widths (b : box) : list Z := map (fun p => (snd p - fst p)%Z) b.

(** hdf5.py:209-215 to_hdf5_dataset: storing the array of a process in its part of the array in the file; None for
    elements that are not determined.  An array of another shape than that of the part cannot be stored (broadcasting is
    left out); at most three dimensions, as PETSc requires. *)
Definition zlist_eqb (a b : list Z) : bool := if list_eq_dec Z.eq_dec a b then true else false.
Definition store (dset : array) (b : box) (a : array) : result array :=
  match a_shape dset, a_shape a with
  | n :: s, n' :: s' =>
      if ((n =? n')%Z && zlist_eqb s' (widths b))%bool then
        Ok (mkArray (n :: s)
              (match a_data dset, a_data a with
               | Some old, Some new =>
                   Some (build (n :: s) (fun ix => match ix with
                     | m :: jx => if inside b jx then at_ (n' :: s') new (m :: less b jx) else at_ (n :: s) old ix
                     | [] => 0
                     end))
               | _, _ => None
               end))
      else Err BadShape
  | _, _ => Err BadShape
  end.
Fixpoint store_all (dset : array) (parts : list (box * array)) : result array :=
  match parts with
  | [] => Ok dset
  | (b, a) :: r => d <- store dset b a ;; store_all d r
  end.
(** create_dataset: filled with zeros *)
Definition create (shape : list Z) : array := mkArray shape (Some (build shape (fun _ => 0))).

(** ** write *)
(** hdf5.py:123-126: state.p is the number 0 if mp has not been set, which has no shape *)
Fixpoint chosen (write_p : bool) (d : dstate) : result (list (box * array)) :=
  match d with
  | [] => Ok []
  | (b, s) :: r =>
      a <- (if write_p then match s_p s with Some a => Ok a | None => Err NoArray end else Ok (s_q s)) ;;
      l <- chosen write_p r ;; Ok ((b, a) :: l)
  end.
Fixpoint auxes (d : dstate) : list (box * array) :=
  match d with
  | [] => []
  | (b, s) :: r => match s_aux s with Some a => (b, a) :: auxes r | None => auxes r end
  end.
(** hdf5.py:98-140: one state; the attributes and the number of rows are the same on all processes *)
Definition par_group (write_aux write_p : bool) (d : dstate) : result group :=
  match d with
  | [] => Err NoStates
  | (_, s) :: _ =>
      let cells := map d_n (p_dims (s_patch s)) in
      parts <- chosen write_p d ;;
      q <- store_all (create (match parts with (_, a) :: _ => rows a | [] => 0%Z end :: cells)) parts ;;
      aux <- (if (write_aux && (0 <? num_aux s)%Z)%bool
              then a <- store_all (create (num_aux s :: cells)) (auxes d) ;; Ok [(lit "aux", a)]
              else Ok []) ;;
      Ok (mkGroup (set_attrs (attrs_of s)) ((lit "q", q) :: aux))
  end.
Definition par_name (d : dstate) : text := match d with (_, s) :: _ => group_name s | [] => [] end.
Fixpoint par_write_states (write_aux write_p : bool) (l : list dstate) (f : file) : result file :=
  match l with
  | [] => Ok f
  | d :: r =>
      g <- par_group write_aux write_p d ;;
      f' <- add_group (par_name d) g f ;;
      par_write_states write_aux write_p r f'
  end.
(** hdf5.py:82-97 write: the option compression must be None *)
Inductive outcome := Written (fs : files) | Failed (e : error) | Compressed.
Definition par_write (compression : bool) (fs : files) (path prefix : text) (frame : Z) (write_aux write_p : bool) (l : list dstate) : outcome :=
  if compression then Compressed
  else match par_write_states write_aux write_p l [] with
       | Ok f => Written (fun n => if text_eqb n (file_name path prefix frame) then Some f else fs n)
       | Err e => Failed e
       end.

(** ** read *)
(** dset[:,lo:hi,...]: bounds beyond the array are cut off *)
Definition clipped (b : box) (shape : list Z) : box :=
  map (fun p => (Z.min (fst (fst p)) (snd p), Z.min (snd (fst p)) (snd p))) (combine b shape).
Definition cut (b : box) (a : array) : array :=
  match a_shape a with
  | n :: s =>
      let c := clipped b s in
      let shape := n :: map (Z.max 0) (widths c) in
      mkArray shape (option_map (fun l => build shape (fun ix => match ix with m :: jx => at_ (n :: s) l (m :: plus c jx) | [] => 0 end)) (a_data a))
  | [] => a
  end.
(** a.reshape(shape) takes the elements with the last index fastest *)
Definition c_reshaped (a : array) (shape : list Z) : result array :=
  if (size (a_shape a) =? size shape)%Z then
    Ok (mkArray shape (option_map (fun l =>
      let elements := map (fun rx => at_ (a_shape a) l (rev rx)) (indices (rev (a_shape a))) in
      build shape (fun ix => nth (Z.to_nat (pos (rev shape) (rev ix))) elements 0)) (a_data a)))
  else Err BadShape.
(** hdf5.py:164-202, 217-223 one group, on the process that holds box [b] of a patch with these numbers of cells *)
Definition par_read_group (range : list Z -> box) (read_aux : bool) (g : group) : result state :=
  match assoc (lit "dimensions") (g_attrs g) with
  | Some (ANames names) =>
      ds <- read_dims g names ;;
      t <- num_attr (lit "t") g ;;
      n <- int_attr (lit "num_eqn") g ;;
      i <- int_attr (lit "patch_index") g ;;
      l <- int_attr (lit "level") g ;;
      m <- int_attr (lit "num_aux") g ;;
      let cells := map d_n ds in
      let b := range cells in
      match (if (n =? 0)%Z then None else Some tt), assoc (lit "q") (g_sets g) with
      | Some _, Some q1 =>
          q2 <- c_reshaped q1 (n :: cells) ;;
          q <- reshaped (cut b q2) (n :: widths b) ;;
          aux <- (match (if read_aux then assoc (lit "aux") (g_sets g) else None), (m =? 0)%Z with
                  | Some a, false => a' <- reshaped (cut b a) (m :: widths b) ;; Ok (Some a')
                  | Some a, true => Err NoAttribute          (* state.aux is None *)
                  | None, true => Ok None
                  | None, false => Ok (Some (mkArray (m :: widths b) None))
                  end) ;;
          Ok (mkState (mkPatch (Some i) (Some l) ds) t q None aux)
      | _, _ => Err NoAttribute
      end
  | _ => Err NoAttribute
  end.
Fixpoint par_read_groups (range : list Z -> box) (read_aux : bool) (f : file) : result (list state) :=
  match f with
  | [] => Ok []
  | (_, g) :: r => s <- par_read_group range read_aux g ;; ss <- par_read_groups range read_aux r ;; Ok (s :: ss)
  end.
(** hdf5.py:158-207 read on one process *)
Definition par_read (range : list Z -> box) (fs : files) (path prefix : text) (frame : Z) (read_aux : bool) (old : list state) : result (list state) :=
  match fs (file_name path prefix frame) with
  | None => Err NoFile
  | Some f => ss <- par_read_groups range read_aux f ;; Ok (old ++ ss)
  end.
