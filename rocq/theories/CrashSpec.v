(** A crash while a frame is being written, and what a reader may make of the remains. *)
From Coq Require Import Ascii String.
From Verif Require Import Base FormatModel FormatSpec AsciiModel AsciiSpec.
Open Scope Q_scope.

Section Files.
Context {D : Type}.

(** What a crash leaves of the file that was being written: of a text its beginning, of a pickle bytes that cannot be
    loaded. *)
Inductive remains : @content D -> @content D -> Prop :=
| remains_text u v : remains (TextFile u) (TextFile (u ++ v))
| remains_pickle d : remains (TextFile []) (PickleFile d).

(** Files are written one after the other; the crash comes before or after one of them, or while one is open. *)
Inductive crashed (fs : @files D) : list (text * @content D) -> @files D -> Prop :=
| crashed_between l : crashed fs l fs
| crashed_in name c c' later : remains c' c -> crashed fs ((name, c) :: later) (store fs name c')
| crashed_later name c later fs' : crashed (store fs name c) later fs' -> crashed fs ((name, c) :: later) fs'.

(** A text in which a number (or another word) starts: a blank, then no blank *)
Definition starts_word (v : text) : Prop :=
  exists a c d b, v = a ++ c :: d :: b /\ is_space c = true /\ is_space d = false.

(** The last entry of an array: the last component of the last cell *)
Definition last_entry (num_var : nat) (ns : list Z) (m : Z) (ix : list Z) : Prop :=
  m = (Z.of_nat num_var - 1)%Z /\ ix = map (fun n => n - 1)%Z ns.
(** The same array up to nine digits in every entry, except possibly the last *)
Definition same_but_last (num_var : nat) (ns : list Z) (q q' : field) : Prop :=
  forall m ix, (0 <= m < Z.of_nat num_var)%Z -> cell_of ns ix -> ~ last_entry num_var ns m ix -> nine_digits (q m ix) (q' m ix).

(** A state that was saved before the crash, [same] telling how its arrays compare; the auxiliary array or the problem
    data may be missing. *)
Record saved (same : nat -> list Z -> field -> field -> Prop) (s s' : @state D) : Prop := {
  sv_patch : same_patch (s_patch s) (s_patch s');
  sv_t : nine_digits (s_t s) (s_t s');
  sv_num_eqn : s_num_eqn s' = s_num_eqn s;
  sv_q : same (s_num_eqn s) (map d_n (p_dims (s_patch s))) (s_q s) (s_q s');
  sv_num_aux : s_num_aux s' = s_num_aux s;
  sv_aux : s_aux s' = None \/
           exists a a', s_aux s = Some a /\ s_aux s' = Some a' /\ same (s_num_aux s) (map d_n (p_dims (s_patch s))) a a';
  sv_data : s_data s' = None \/ s_data s' = s_data s }.
(** The frame, but for the last entry of the last patch *)
Definition nearly (sol sol' : @solution D) : Prop :=
  so_num_dim sol' = so_num_dim sol /\
  exists l s l' s', so_states sol = l ++ [s] /\ so_states sol' = l' ++ [s'] /\
    Forall2 (saved same_array) l l' /\ saved same_but_last s s'.
End Files.
