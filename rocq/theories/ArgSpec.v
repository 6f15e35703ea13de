(** Command line arguments: what the user typed. *)
From Coq Require Import Ascii String.
From Verif Require Import Base FormatModel ArgModel.

(** the argument key=v, with no other equals sign *)
Definition is_setting (key v s : text) : Prop := s = key ++ c_eq :: v /\ ~ In c_eq key /\ ~ In c_eq v.
(** the last argument that sets key sets it to v *)
Definition last_setting (key v : text) (args : list text) : Prop :=
  exists pre s post, args = pre ++ s :: post /\ is_setting key v s /\ forall s' v', In s' post -> ~ is_setting key v' s'.

(** a text with every -- replaced by -, from the left *)
Inductive single_dashes : text -> text -> Prop :=
| DashEnd : single_dashes [] []
| DashKeep c s t : ~ (c = c_dash /\ exists r, s = c_dash :: r) -> single_dashes s t -> single_dashes (c :: s) (c :: t)
| DashDouble s t : single_dashes s t -> single_dashes (c_dash :: c_dash :: s) (c_dash :: t).

Section Meaning.
Context {J : Type} (json_loads : text -> option (value J)).
(** the value that a text stands for *)
Inductive stands_for (t : text) : value J -> Prop :=
| StandsTrue : t = lit "True" \/ json_loads t = Some (VStr J (lit "True")) -> stands_for t (VBool J true)
| StandsFalse : t = lit "False" \/ json_loads t = Some (VStr J (lit "False")) -> stands_for t (VBool J false)
| StandsJson w : json_loads t = Some w -> w <> VStr J (lit "True") -> w <> VStr J (lit "False") -> stands_for t w
| StandsText : json_loads t = None -> t <> lit "True" -> t <> lit "False" -> stands_for t (VStr J t).
End Meaning.
