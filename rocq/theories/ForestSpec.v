(** What reading a ForestClaw frame must give, and which processes never touch that format. *)
From Coq Require Import Ascii String.
From Verif Require Import Base FormatModel FormatSpec AsciiModel AsciiSpec ForestModel.
Open Scope Q_scope.

Section Files.
Context {D : Type}.
(** the additional numbers of the patches *)
Definition forest_patches (sol : @fsolution D) : Prop := Forall (fun s => fs_extra s <> None) (fo_states sol).
Definition ordinary_patches (sol : @fsolution D) : Prop := Forall (fun s => fs_extra s = None) (fo_states sol).

(** The frame read back: everything the ordinary format keeps, and the block and rank of every patch. *)
Record forest_read_back (sol sol' : @fsolution D) : Prop := {
  fr_plain : read_back false (plain_sol sol) (plain_sol sol');
  fr_extra : map fs_extra (fo_states sol') = map fs_extra (fo_states sol) }.

(** fort.t of a frame without the line naming the format (and the number of ghost cells), as the ForestClaw
    program writes it: the first five lines *)
Definition forest_t (sol : @fsolution D) (t : Q) (num_eqn num_aux : nat) : text :=
  float_line t (lit "time") ++
  int_line (Z.of_nat num_eqn) (lit "mfields") ++
  int_line (Z.of_nat (length (fo_states sol))) (lit "ngrids") ++
  int_line (Z.of_nat num_aux) (lit "num_aux") ++
  int_line (Z.of_nat (fo_num_dim sol)) (lit "num_dim").

(** the action asks for the ForestClaw format *)
Definition asks_forest (a : @action D) : bool :=
  match a with
  | WriteFrame _ _ _ format _ => text_eqb format (lit "forestclaw")
  | ReadFrame _ _ _ (Some format) => text_eqb format (lit "forestclaw")
  | ReadFrame _ _ _ None => false
  end.
(** no file says that its format is forestclaw *)
Definition no_forest_label (fs : @files D) : Prop :=
  forall path prefix frame f, read_t fs path prefix frame = Ok f -> f_format f <> Some (lit "forestclaw").
End Files.
