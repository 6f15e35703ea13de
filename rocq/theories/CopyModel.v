(** Copies of states and solutions: src/pyclaw/state.py (State.__deepcopy__), src/pyclaw/geometry.py
    (Patch.__deepcopy__, Domain.__deepcopy__), src/pyclaw/solution.py (Solution.__deepcopy__).

    Objects that can be changed in place live in a store and are referred to by their addresses.
    Simplifications: the elements of arrays are listed in one fixed order; the problem data is a list of
    pairs; a patch and its grid are one object (Patch creates its Grid from its own dimensions); gauge_data,
    which belongs to one state only, is left out. *)
From Verif Require Import Base.

(** geometry.py:684-700 Patch with its Grid *)
Record patch := mkPatch {
  p_dims : list (Q * Q * Z);      (* lower, upper, num_cells of each dimension *)
  p_level : Z;
  p_index : Z;                    (* patch_index *)
  p_map : Z;                      (* grid.mapc2p: which function *)
  p_gauges : list (list Z) }.     (* grid.gauges *)

Inductive obj := Arr (l : list Q) | Dict (l : list (Z * Q)) | Pat (p : patch).
Definition store := list obj.

(** The attributes of a State that refer to objects *)
Inductive fld := Fq | Faux | Fdata | Fpatch | Fp | FF.
Definition fld_eqb (a b : fld) : bool :=
  match a, b with
  | Fq, Fq | Faux, Faux | Fdata, Fdata | Fpatch, Fpatch | Fp, Fp | FF, FF => true
  | _, _ => false
  end.

(** state.py:119-152 State: its references (None is Python's None) and its plain attributes *)
Record state := mkState {
  s_ref : fld -> option nat;
  s_t : Q;
  s_capa : Z;           (* index_capa *)
  s_keep : bool }.      (* keep_gauges *)

Definition set_ref (f : fld) (a : option nat) (s : state) : state :=
  mkState (fun f' => if fld_eqb f f' then a else s_ref s f') (s_t s) (s_capa s) (s_keep s).

(** *** Changes of one state *)
Inductive change :=
| InPlace (f : fld) (g : obj -> obj)    (* state.q[...] = ..., state.problem_data[k] = ..., state.patch.x.lower = ... *)
| Assign (f : fld) (o : option obj)     (* state.q = new array, state.aux = None, ... *)
| SetT (t : Q)
| SetCapa (k : Z)
| SetKeep (b : bool).

Fixpoint replace_at (a : nat) (g : obj -> obj) (h : store) : store :=
  match h, a with
  | [], _ => []
  | o :: r, O => g o :: r
  | o :: r, S a' => o :: replace_at a' g r
  end.
(** Changing an object through None raises in Python and changes nothing. *)
Definition apply_change (c : change) (h : store) (s : state) : store * state :=
  match c with
  | InPlace f g => match s_ref s f with Some a => (replace_at a g h, s) | None => (h, s) end
  | Assign f (Some o) => (h ++ [o], set_ref f (Some (length h)) s)
  | Assign f None => (h, set_ref f None s)
  | SetT t => (h, mkState (s_ref s) t (s_capa s) (s_keep s))
  | SetCapa k => (h, mkState (s_ref s) (s_t s) k (s_keep s))
  | SetKeep b => (h, mkState (s_ref s) (s_t s) (s_capa s) b)
  end.

(** *** Deep copies *)

(** geometry.py:725-734 Patch.__deepcopy__: dimensions, mapc2p, level and patch_index; arrays and
    dictionaries are copied by Python's copy.deepcopy *)
Definition copy_obj (o : obj) : obj :=
  match o with
  | Pat p => Pat (mkPatch (p_dims p) (p_level p) (p_index p) (p_map p) [])
  | _ => o
  end.
(** attribute := copy.deepcopy(attribute of the original) *)
Definition copy_field (f : fld) (src : state) (h : store) (s : state) : store * state :=
  match s_ref src f with
  | None => (h, s)
  | Some a => match nth_error h a with
              | Some o => (h ++ [copy_obj o], set_ref f (Some (length h)) s)
              | None => (h, s)
              end
  end.
(** state.py:310-324 State.__deepcopy__: a new state (p, F None, index_capa -1, keep_gauges False) on a copy of the
    patch, then t, q, aux and problem_data *)
Definition deepcopy_state (h : store) (src : state) : store * state :=
  let s0 := mkState (fun _ => None) (s_t src) (-1) false in
  let '(h1, s1) := copy_field Fpatch src h s0 in
  let '(h2, s2) := copy_field Fq src h1 s1 in
  let '(h3, s3) := copy_field Faux src h2 s2 in
  copy_field Fdata src h3 s3.

(** *** A program that changes and copies states *)
Inductive op := Change (i : nat) (c : change) | Copy (i : nat).
Definition set_nth_state (i : nat) (s : state) (l : list state) : list state := firstn i l ++ s :: skipn (S i) l.
Definition step (o : op) (w : store * list state) : store * list state :=
  let '(h, ss) := w in
  match o with
  | Change i c => match nth_error ss i with
                  | Some s => let '(h', s') := apply_change c h s in (h', set_nth_state i s' ss)
                  | None => w
                  end
  | Copy i => match nth_error ss i with
              | Some s => let '(h', s') := deepcopy_state h s in (h', ss ++ [s'])
              | None => w
              end
  end.
Definition exec (ops : list op) (w : store * list state) : store * list state := fold_left (fun w o => step o w) ops w.

(** *** Solutions: solution.py:238-250 Solution.__deepcopy__ *)
Record solution := mkSolution {
  sol_states : list state;
  sol_domain : list nat;       (* domain.patches: addresses of patches *)
  sol_start : Z }.             (* _start_frame *)
Fixpoint deepcopy_states (h : store) (ss : list state) : store * list state :=
  match ss with
  | [] => (h, [])
  | s :: r => let '(h1, s1) := deepcopy_state h s in
              let '(h2, r') := deepcopy_states h1 r in (h2, s1 :: r')
  end.
(** geometry.py:810-815 Domain.__deepcopy__ *)
Fixpoint deepcopy_patches (h : store) (ps : list nat) : store * list nat :=
  match ps with
  | [] => (h, [])
  | a :: r => match nth_error h a with
              | Some o => let '(h', r') := deepcopy_patches (h ++ [copy_obj o]) r in (h', length h :: r')
              | None => deepcopy_patches h r
              end
  end.
Definition deepcopy_solution (h : store) (u : solution) : store * solution :=
  let '(h1, ss) := deepcopy_states h (sol_states u) in
  let '(h2, d) := deepcopy_patches h1 (sol_domain u) in
  (h2, mkSolution ss d 0).
