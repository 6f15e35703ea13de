(** What an HDF5 frame must give back. *)
From Coq Require Import Ascii String Permutation Sorting.Sorted.
From Verif Require Import Base FormatModel HdfModel.

(** A state that can be stored: valid dimensions with different names, arrays of the right shape, a patch index and a
    level; units, if any, are not the empty text. *)
Definition fits_grid (s : state) (a : array) : Prop := exists n, (n <> 0)%Z /\ a_shape a = n :: map d_n (p_dims (s_patch s)).
Record storable (s : state) : Prop := {
  st_dims : Forall (fun d => (0 < d_n d)%Z /\ d_lower d < d_upper d /\ d_units d <> Some []) (p_dims (s_patch s));
  st_names : NoDup (map d_name (p_dims (s_patch s)));
  st_index : p_index (s_patch s) <> None;
  st_level : p_level (s_patch s) <> None;
  st_q : fits_grid s (s_q s);
  st_aux : match s_aux s with Some a => fits_grid s a /\ (0 < rows a)%Z | None => True end }.

(** The state read back: everything but p; without a stored auxiliary array there is one with undetermined contents *)
Definition back (with_aux : bool) (s : state) : state :=
  mkState (s_patch s) (s_t s) (s_q s) None
    (match s_aux s with
     | Some a => if with_aux then Some a else Some (mkArray (a_shape a) None)
     | None => None
     end).
(** In the order of the names of the groups *)
Definition before (a b : state) : Prop := text_ltb (group_name a) (group_name b) = true.
Definition in_order (l : list state) : Prop := StronglySorted before l.
