(** Reading raw binary frames: src/pyclaw/fileio/binary.py.

    A binary file is the list of the numbers in it.  An array has a shape (components first) and values. *)
From Coq Require Import Ascii String.
From Verif Require Import Base FormatModel AsciiModel.
Open Scope Q_scope.

Record array := mkArray { a_shape : list Z; a_val : list Z -> Q }.

(** np.prod *)
Definition prod (shape : list Z) : Z := fold_right Z.mul 1%Z shape.
(** the position of an element in column-major order: the first index varies fastest *)
Fixpoint offset (shape ix : list Z) : Z :=
  match shape, ix with
  | n :: shape', i :: ix' => (i + n * offset shape' ix')%Z
  | _, _ => 0%Z
  end.
(** np.reshape(l, shape, order='F'); ValueError if the number of elements differs *)
Definition reshape_F (l : list Q) (shape : list Z) : result array :=
  if (Z.of_nat (length l) =? prod shape)%Z
  then Ok (mkArray shape (fun ix => nth (Z.to_nat (offset shape ix)) l 0))
  else Err BadValue.
(** l[i:j] of a list for 0 <= i <= j *)
Definition slice (l : list Q) (i j : Z) : list Q := firstn (Z.to_nat (j - i)) (skipn (Z.to_nat i) l).
(** The part [g:-g] of an axis of length [len] ([g >= 0]): its length.  The index -0 is 0. *)
Definition cut_len (g len : Z) : Z := Z.max 0 ((if (g =? 0)%Z then 0 else Z.max 0 (len - g)) - Z.min g len).
(** a[:, g:-g, ..., g:-g] *)
Definition cut (g : Z) (a : array) : array :=
  match a_shape a with
  | m :: ns => mkArray (m :: map (cut_len g) ns)
                       (fun ix => match ix with i :: ix' => a_val a (i :: map (Z.add g) ix') | [] => a_val a [] end)
  | [] => a
  end.

Section Files.
Context {D : Type}.

(** state.py State: what the binary reader sets *)
Record bstate := mkBState { b_patch : patch; b_t : Q; b_q : array; b_num_aux : Z; b_aux : option array }.

(** binary.py:62-70, 169-177: np.fromfile; a file that is not binary is not modelled *)
Definition from_file (fs : @files D) (name fmt : text) : result (list Q) :=
  match fs name with
  | None => Err FileMissing
  | Some c =>
      if (text_eqb fmt (lit "binary") || text_eqb fmt (lit "binary64") || text_eqb fmt (lit "binary32"))%bool
      then match c with DataFile l => Ok l | _ => Err NotModelled end
      else Err BadValue
  end.

(** binary.py:109-143, 182-207: the next array of the stream, ghost cells included, as (array, next
    position).  A negative number of ghost cells is an error value. *)
Definition next_array (data : list Q) (start : Z) (num_var g : Z) (ns : list Z) : result (array * Z) :=
  if (g <? 0)%Z then Err BadValue else
  let shape := num_var :: map (fun n => n + 2 * g)%Z ns in
  let stop := (start + prod shape)%Z in
  a <- reshape_F (slice data start stop) shape ;;
  Ok (a, stop).

(** binary.py:82-151: one round of the loop over the patches *)
Definition read_bstate (f : t_data) (data : list Q) (h : handle) (start : Z) : result (bstate * handle * Z) :=
  '(p, h) <- read_patch_header (Z.to_nat (f_num_dim f)) h ;;
  '(a, stop) <- next_array data start (f_num_eqn f) (f_num_ghost f) (map d_n (p_dims p)) ;;
  if ((1 <=? length (p_dims p)) && (length (p_dims p) <=? 3))%nat%bool
  then Ok (mkBState p (f_t f) (if (f_num_ghost f =? 0)%Z then a else cut (f_num_ghost f) a) (f_num_aux f) None, h, stop)
  else Err BadDimension.
Fixpoint read_bstates (f : t_data) (data : list Q) (k : nat) (h : handle) (start : Z) : result (list bstate) :=
  match k with
  | O => Ok []
  | S k' => '(s, h, stop) <- read_bstate f data h start ;;
            l <- read_bstates f data k' h stop ;;
            Ok (s :: l)
  end.
(** binary.py:181-207: the auxiliary arrays; the ghost cells are cut off without a special case for none *)
Fixpoint read_baux (num_ghost : Z) (data : list Q) (ss : list bstate) (start : Z) : result (list bstate) :=
  match ss with
  | [] => Ok []
  | s :: r =>
      '(a, stop) <- next_array data start (b_num_aux s) num_ghost (map d_n (p_dims (b_patch s))) ;;
      l <- read_baux num_ghost data r stop ;;
      Ok (mkBState (b_patch s) (b_t s) (b_q s) (b_num_aux s) (Some (cut num_ghost a)) :: l)
  end.

(** binary.py:21-207 read into a new Solution; [fmt] is options['format'] *)
Definition binary_read (fs : @files D) (path prefix : text) (frame : Z) (fmt : text) (read_aux : bool) : result (list bstate) :=
  f <- read_t fs path prefix frame ;;
  data <- from_file fs (read_name path prefix "b" frame) fmt ;;
  h <- open_text fs (read_name path prefix "q" frame) ;;
  ss <- read_bstates f data (Z.to_nat (f_nstates f)) h 0 ;;
  match ss with
  | [] => Err BadIndex
  | s0 :: _ =>
      if ((0 <? b_num_aux s0)%Z && read_aux)%bool then
        let found := match fs (read_name path prefix "a" frame) with
                     | Some _ => Some (read_name path prefix "a" frame)
                     | None => match fs (read_name path prefix "a" 0) with
                               | Some _ => Some (read_name path prefix "a" 0)
                               | None => None
                               end
                     end in
        match found with
        | None => Ok ss
        | Some name =>
            data <- from_file fs name fmt ;;
            read_baux (f_num_ghost f) data ss 0
        end
      else Ok ss
  end.
End Files.
