(** What HDF5 frames of parallel runs must give (C149). *)
From Verif Require Import Base FormatModel HdfModel HdfSpec PHdfModel.
Open Scope Q_scope.

(** The indices of an array of this shape *)
Definition in_shape (shape ix : list Z) : Prop := Forall2 (fun n i => (0 <= i < n)%Z) shape ix.

(** A box of cells of the grid *)
Definition box_of (cells : list Z) (b : box) : Prop := Forall2 (fun n p => (0 <= fst p /\ fst p <= snd p /\ snd p <= n)%Z) cells b.
(** PETSc's boxes: every cell of the grid is in one of them. *)
Definition spread (cells : list Z) (bs : list box) : Prop :=
  bs <> [] /\ Forall (box_of cells) bs /\ forall jx, in_shape cells jx -> Exists (fun b => inside b jx = true) bs.

(** The array [a'] of a process is the part of [a] in its box: all components, the cells counted from the lower corner of the box,
    and no other elements. *)
Definition part (b : box) (a a' : array) : Prop :=
  a_shape a' = rows a :: widths b /\
  match a_data a, a_data a' with
  | Some l, Some l' => Z.of_nat (length l') = size (a_shape a') /\
      forall m jx, in_shape (a_shape a') (m :: jx) -> at_ (a_shape a') l' (m :: jx) = at_ (a_shape a) l (m :: plus b jx)
  | None, None => True
  | _, _ => False
  end.
Definition part_option (b : box) (a a' : option array) : Prop :=
  match a, a' with Some x, Some y => part b x y | None, None => True | _, _ => False end.
(** The state of a process: geometry and time of the whole patch, its part of the arrays. *)
Definition share (b : box) (s s' : state) : Prop :=
  s_patch s' = s_patch s /\ s_t s' = s_t s /\ part b (s_q s) (s_q s') /\ part_option b (s_p s) (s_p s') /\ part_option b (s_aux s) (s_aux s').
(** The states of all processes for one patch *)
Definition distributed (bs : list box) (s : state) (d : dstate) : Prop := Forall2 (fun b x => fst x = b /\ share b s (snd x)) bs d.

(** Arrays with as many elements as the shape says *)
Definition full (a : array) : Prop := match a_data a with Some l => Z.of_nat (length l) = size (a_shape a) | None => True end.
Definition whole (s : state) : Prop :=
  full (s_q s) /\ (match s_p s with Some a => full a /\ fits_grid s a /\ (0 < rows a)%Z | None => True end) /\ (match s_aux s with Some a => full a | None => True end) /\
  (0 < rows (s_q s))%Z.
(** A state held in parts by the processes of a run *)
Definition in_parts (s : state) (d : dstate) : Prop :=
  storable s /\ whole s /\ exists bs, spread (map d_n (p_dims (s_patch s))) bs /\ distributed bs s d.
