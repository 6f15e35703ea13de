(** Gauge files: what a user expects, independent of the texts. *)
From Coq Require Import Ascii String.
From Verif Require Import Base FormatModel FormatSpec GFileModel.
Open Scope Q_scope.

(** [y] differs from [x] by at most half a unit in digit p+1 of x: the leading digit of [x] is worth [10^e] *)
Definition accurate (p : nat) (x y : Q) : Prop :=
  (x == 0 /\ y == 0) \/
  exists e, ten_to e <= Qabs x /\ Qabs x < ten_to (e + 1) /\ Qabs (y - x) <= (1 # 2) * ten_to (e - Z.of_nat p).

(** a gauge with all its data: number, place, number of fields, at least one observation, as many levels and times as
    observations, each with all fields *)
Record complete (g : gauge) (id : Z) (loc : list Q) (lev : list Z) (ts : list Q) (nf : nat) (obs : list (list Q)) : Prop := {
  c_id : g_id g = Some id; c_id_pos : (0 <= id)%Z;
  c_loc : g_location g = Some loc;
  c_lev : g_level g = Some lev; c_t : g_t g = Some ts; c_q : g_q g = Some (nf, obs);
  c_some : obs <> [];
  c_nlev : length lev = length obs; c_nt : length ts = length obs;
  c_fields : Forall (fun v => length v = nf) obs }.

(** Python's text of a float: one word that float() reads back as the same number *)
Definition readable (str_float : Q -> text) (x : Q) : Prop :=
  str_float x <> [] /\ Forall (fun c => is_space c = false) (str_float x) /\
  exists y, parse_float (str_float x) = Some y /\ y == x.

(** ** Files of GeoClaw with the data in a .bin file *)

(** [w] occurs in [s] *)
Definition has (w s : text) : Prop := exists a b, s = a ++ w ++ b.
(** "# gauge_id= ID location=( X [Y [Z]] ) num_eqn= N" *)
Record first_line (l : text) (id : Z) (loc : list Q) (nf : nat) : Prop := {
  f_words : exists wid wloc wn,
    words l = lit "#" :: lit "gauge_id=" :: wid :: lit "location=(" :: wloc ++ [lit ")"; lit "num_eqn="; wn] /\
    parse_int wid = Some id /\ Forall2 (fun w x => parse_float w = Some x) wloc loc /\ parse_int wn = Some (Z.of_nat nf);
  f_dims : (1 <= length loc <= 3)%nat }.
Definition kind_line (l : text) (ty : gtype) : Prop :=
  match ty with
  | Lagrangian => has (lit "lagrangian") (lower_case l)
  | Stationary => has (lit "stationary") (lower_case l) /\ ~ has (lit "lagrangian") (lower_case l)
  end.
(** the fourth line, or nothing *)
Definition format_lines (ls : list text) (single : bool) : Prop :=
  match ls with
  | [] => single = false
  | l :: _ => if single then has (lit "binary32") l else has (lit "binary") l /\ ~ has (lit "binary32") l
  end.
(** an observation: level, time and fields *)
Definition observation : Type := Z * Q * list Q.
Definition record (o : observation) : list Q := let '(lev, t, v) := o in inject_Z lev :: t :: v.
Definition the_level (o : observation) : Z := fst (fst o).
Definition the_time (o : observation) : Q := snd (fst o).
Definition the_fields (o : observation) : list Q := snd o.
(** where the gauge was: a particle's position is in the second and third field; known in two dimensions only *)
Definition places (ty : gtype) (loc : list Q) (obs : list observation) (before : option (list (list Q))) : option (list (list Q)) :=
  match loc, ty with
  | [_; _], Lagrangian => Some (map (fun o => [the_time o; nth 1 (the_fields o) 0; nth 2 (the_fields o) 0]) obs)
  | [x; y], Stationary => Some [[match obs with o :: _ => the_time o | [] => 0 end; x; y]]
  | _, _ => before
  end.
