(** What reading an ASCII frame must give. *)
From Coq Require Import Ascii String.
From Verif Require Import Base FormatModel FormatSpec AsciiModel.
Open Scope Q_scope.

(** [ix] are the indices of a cell of a patch with these numbers of cells. *)
Definition cell_of (ns : list Z) (ix : list Z) : Prop := Forall2 (fun i n => (0 <= i < n)%Z) ix ns.

(** The same patch: index, level and numbers of cells are exact; lower ends and cell widths are accurate to
    nine digits.  Names of dimensions are not stored: the reader calls them x, y, z. *)
Record same_patch (p p' : patch) : Prop := {
  sp_index : p_index p' = p_index p;
  sp_level : p_level p' = p_level p;
  sp_cells : map d_n (p_dims p') = map d_n (p_dims p);
  sp_names : map d_name (p_dims p') = firstn (length (p_dims p)) [lit "x"; lit "y"; lit "z"];
  sp_place : Forall2 (fun d d' => nine_digits (d_lower d) (d_lower d') /\ nine_digits (d_delta d) (d_delta d'))
                     (p_dims p) (p_dims p') }.

(** The same array up to nine digits in every entry. *)
Definition same_array (num_var : nat) (ns : list Z) (q q' : field) : Prop :=
  forall m ix, (0 <= m < Z.of_nat num_var)%Z -> cell_of ns ix -> nine_digits (q m ix) (q' m ix).

Section Files.
Context {D : Type}.

(** A state read back: [with_aux] tells whether the auxiliary array was stored and asked for. *)
Record state_read_back (with_aux : bool) (s s' : @state D) : Prop := {
  rb_patch : same_patch (s_patch s) (s_patch s');
  rb_t : nine_digits (s_t s) (s_t s');
  rb_num_eqn : s_num_eqn s' = s_num_eqn s;
  rb_q : same_array (s_num_eqn s) (map d_n (p_dims (s_patch s))) (s_q s) (s_q s');
  rb_num_aux : s_num_aux s' = s_num_aux s;
  rb_aux : if with_aux
           then exists a a', s_aux s = Some a /\ s_aux s' = Some a' /\
                same_array (s_num_aux s) (map d_n (p_dims (s_patch s))) a a'
           else s_aux s' = None;
  rb_data : s_data s' = s_data s }.

Record read_back (with_aux : bool) (sol sol' : @solution D) : Prop := {
  rb_num_dim : so_num_dim sol' = so_num_dim sol;
  rb_states : Forall2 (state_read_back with_aux) (so_states sol) (so_states sol') }.

(** A solution the format supports (see the docstring of ascii.write): one to three dimensions; the same
    number of dimensions, components and auxiliary fields, the same time and the same problem data in all
    patches; at least one patch and one component; valid dimensions; finite double precision entries;
    names of dimensions without line breaks. *)
Record writable_patch (num_dim : nat) (p : patch) : Prop := {
  wp_dims : length (p_dims p) = num_dim;
  wp_valid : Forall (fun d => (0 < d_n d)%Z /\ d_lower d < d_upper d /\ ~ In c_nl (d_name d)) (p_dims p) }.
Definition finite_array (num_var : nat) (ns : list Z) (q : field) : Prop :=
  forall m ix, (0 <= m < Z.of_nat num_var)%Z -> cell_of ns ix -> double_range (q m ix).
Record writable_state (sol : @solution D) (t : Q) (num_eqn num_aux : nat) (data : option D) (s : @state D) : Prop := {
  ws_patch : writable_patch (so_num_dim sol) (s_patch s);
  ws_t : s_t s = t;
  ws_num_eqn : s_num_eqn s = num_eqn;
  ws_q : finite_array num_eqn (map d_n (p_dims (s_patch s))) (s_q s);
  ws_num_aux : s_num_aux s = num_aux;
  ws_aux : (0 < num_aux)%nat -> exists a, s_aux s = Some a /\ finite_array num_aux (map d_n (p_dims (s_patch s))) a;
  ws_data : s_data s = data }.
Record writable (sol : @solution D) (t : Q) (num_eqn num_aux : nat) (data : option D) : Prop := {
  w_num_dim : (1 <= so_num_dim sol <= 3)%nat;
  w_num_eqn : (1 <= num_eqn)%nat;
  w_some : so_states sol <> [];
  w_states : Forall (writable_state sol t num_eqn num_aux data) (so_states sol) }.
End Files.
