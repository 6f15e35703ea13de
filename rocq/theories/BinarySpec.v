(** What a raw binary frame contains. *)
From Coq Require Import Ascii String.
From Verif Require Import Base FormatModel FormatSpec AsciiModel AsciiSpec BinaryModel.
Open Scope Q_scope.

(** The stream written by nested loops, the last index outermost and the first innermost: [rns] are the
    lengths of the loops, outermost first, [ix] the indices of the loops already entered. *)
Fixpoint dump (f : list Z -> Q) (rns : list Z) (ix : list Z) : list Q :=
  match rns with
  | [] => [f ix]
  | n :: rest => concat (map (fun j => dump f rest (j :: ix)) (range n))
  end.

(** The array of one patch with [g] layers of ghost cells: [v m ix] is the value of component [m] in the cell
    [ix], where cells of the patch have indices 0 .. n-1 and ghost cells -g .. -1 and n .. n+g-1. *)
Definition dump_patch (num_var g : Z) (ns : list Z) (v : field) : list Q :=
  dump (fun ix => match ix with m :: c => v m (map (fun i => i - g)%Z c) | [] => 0 end)
       (rev (num_var :: map (fun n => n + 2 * g)%Z ns)) [].

(** An array that holds exactly the cells of a patch. *)
Definition holds (num_var : Z) (ns : list Z) (v : field) (a : array) : Prop :=
  a_shape a = num_var :: ns /\
  forall m ix, (0 <= m < num_var)%Z -> cell_of ns ix -> a_val a (m :: ix) = v m ix.

(** The text file fort.t of such a frame. *)
Definition t_header (t : Q) (num_eqn nstates num_aux num_dim num_ghost : Z) (fmt : text) : text :=
  float_line t (lit "time") ++ int_line num_eqn (lit "num_eqn") ++ int_line nstates (lit "nstates") ++
  int_line num_aux (lit "num_aux") ++ int_line num_dim (lit "num_dim") ++ int_line num_ghost (lit "num_ghost") ++
  fmt ++ repeat c_space 18 ++ lit "file_format" ++ [c_nl].

(** A frame: its patches, and on each patch the values of q and of the auxiliary fields, ghost cells
    included. *)
Record frame_patch := mkFP { fp_patch : patch; fp_q : field; fp_aux : field }.
Definition cells (x : frame_patch) : list Z := map d_n (p_dims (fp_patch x)).

(** The files of the frame: fort.t, the patch headers in fort.q, the values of all patches one after another
    in fort.b, possibly followed by something else. *)
Definition stored {D} (fs : @files D) (path prefix : text) (frame : Z) (t : Q) (num_eqn num_aux g : Z) (num_dim : nat)
    (fmt : text) (xs : list frame_patch) : Prop :=
  fs (read_name path prefix "t" frame) =
    Some (TextFile (t_header t num_eqn (Z.of_nat (length xs)) num_aux (Z.of_nat num_dim) g fmt)) /\
  fs (read_name path prefix "q" frame) = Some (TextFile (concat (map (fun x => patch_header (fp_patch x)) xs))) /\
  exists rest, fs (read_name path prefix "b" frame) =
    Some (DataFile (concat (map (fun x => dump_patch num_eqn g (cells x) (fp_q x)) xs) ++ rest)).
Definition binary_format (fmt : text) : Prop := In fmt [lit "binary"; lit "binary64"; lit "binary32"].
