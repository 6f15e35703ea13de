(** What PETSc frames should do. *)
From Verif Require Import Base FormatModel PetscModel.
Open Scope Q_scope.

Section Data.
Context {D M : Type}.
Notation state := (@state D M).

(** The array that goes to the frame: number of components and elements *)
Definition shown (write_p : bool) (s : state) : option (Z * list Q) := if write_p then s_p s else Some (s_neqn s, s_q s).

(** A state that fits into one frame together with s0: arrays of the sizes PETSc gives them, as many dimensions,
    components and auxiliary fields. *)
Record storable (write_p : bool) (s0 s : state) : Prop := {
  st_dims : Forall (fun d => (0 < d_n d)%Z /\ d_lower d < d_upper d) (s_dims s);
  st_ndim : length (s_dims s) = length (s_dims s0);
  st_q : exists n v, shown write_p s = Some (n, v) /\ option_map fst (shown write_p s0) = Some n
         /\ Z.of_nat (length v) = (n * cells (s_dims s))%Z;
  st_aux : option_map fst (s_aux s) = option_map fst (s_aux s0)
           /\ forall n w, s_aux s = Some (n, w) -> (0 < n)%Z /\ Z.of_nat (length w) = (n * cells (s_dims s))%Z }.

Definition same_dim (d d' : dim) : Prop :=
  d_lower d' = d_lower d /\ d_upper d' == d_upper d /\ d_n d' = d_n d /\ d_name d' = d_name d.
(** What comes back of s: its geometry and values; time, problem data and mapping are those of the first state *)
Record returned (write_p : bool) (s0 s s' : state) : Prop := {
  rt_level : s_level s' = s_level s;
  rt_dims : Forall2 same_dim (s_dims s) (s_dims s');
  rt_q : shown write_p s = Some (s_neqn s', s_q s');
  rt_t : s_t s' = s_t s0;
  rt_problem : s_problem s' = s_problem s0;
  rt_map : s_map s' = s_map s0 }.

(** the files of a frame *)
Definition frame_files (path prefix fmt : text) (frame : Z) (with_aux : bool) : list text :=
  meta_name path prefix frame :: q_name path prefix fmt frame :: (if with_aux then [aux_name path prefix frame] else []).
End Data.
