(** VTK output: src/pyclaw/fileio/claw_vtk.py.

    Two-dimensional patches (with any other number of dimensions the writer raises). What is modelled is what the writer
    hands to the VTK library, which puts it into the file; the conversion of a value to single precision is the argument
    [single]. The checks of VTK (box.IsInvalid, the result of Write) are taken to succeed. *)
From Coq Require Import Ascii String.
From Verif Require Import Base FormatModel.
Open Scope Q_scope.

(** geometry.py Patch with dimensions x and y *)
Record patch := mkPatch { p_level : Z; p_xlo : Q; p_xhi : Q; p_nx : Z; p_ylo : Q; p_yhi : Q; p_ny : Z }.
Definition p_dx (p : patch) : Q := (p_xhi p - p_xlo p) / inject_Z (p_nx p).
Definition p_dy (p : patch) : Q := (p_yhi p - p_ylo p) / inject_Z (p_ny p).
(** state.py State: the components of q, each a function of the cell *)
Record state := mkState { s_patch : patch; s_q : list (Z -> Z -> Q) }.

(** claw_vtk.py:302-317: the range of cells in one direction; [clo], [d], [n]: the coarse patch, [flo], [fhi]: the fine one *)
Definition first_cell (clo d flo : Q) : Z := Z.max (round_even ((flo - clo) / d)) 0.
Definition end_cell (clo d flo fhi : Q) (n : Z) : Z :=
  Z.min (round_even ((fhi - flo) / d) + first_cell clo d flo) n.
(** claw_vtk.py:299-323 *)
Definition marks (c f : patch) (i j : Z) : bool :=
  ((p_level f - 1 =? p_level c - 1 + 1)
   && (first_cell (p_xlo c) (p_dx c) (p_xlo f) <=? i) && (i <? end_cell (p_xlo c) (p_dx c) (p_xlo f) (p_xhi f) (p_nx c))
   && (first_cell (p_ylo c) (p_dy c) (p_ylo f) <=? j) && (j <? end_cell (p_ylo c) (p_dy c) (p_ylo f) (p_yhi f) (p_ny c)))%Z%bool.
Definition status (l : list state) (s : state) (i j : Z) : Q :=
  if existsb (fun f => marks (s_patch s) (s_patch f) i j) l then 8 else 0.
(** claw_vtk.py:236-326 _set_overlapped_status: a new last component of every q *)
Definition set_status (l : list state) : list state :=
  map (fun s => mkState (s_patch s) (s_q s ++ [status l s])) l.

Inductive error := NoStates | BadLevel.   (* IndexError *)
Inductive result (A : Type) := Ok (a : A) | Err (e : error).
Arguments Ok {A} a.
Arguments Err {A} e.
Definition bind {A B} (r : result A) (f : A -> result B) : result B :=
  match r with Ok a => f a | Err e => Err e end.
Notation "x <- r ;; k" := (bind r (fun x => k)) (at level 61, r at next level, right associativity).

(** sorted(l, key): stable *)
Fixpoint insert {A} (key : A -> Z) (x : A) (l : list A) : list A :=
  match l with
  | [] => [x]
  | y :: r => if (key x <=? key y)%Z then x :: l else y :: insert key x r
  end.
Definition sorted {A} (key : A -> Z) (l : list A) : list A := fold_right (insert key) [] l.

(** claw_vtk.py:117-132: the dictionaries level_count and level_spacing, in the order in which levels first occur; the
    spacing is that of the first patch of the level *)
Record level := mkLevel { v_level : Z; v_count : nat; v_spacing : list Q }.
Fixpoint add_level (k : Z) (sp : list Q) (d : list level) : list level :=
  match d with
  | [] => [mkLevel k 1 sp]
  | e :: r => if (v_level e =? k)%Z then mkLevel k (S (v_count e)) (v_spacing e) :: r else e :: add_level k sp r
  end.
Definition spacing (p : patch) : list Q := [p_dx p; p_dy p; p_dx p].
Definition level_count (l : list state) : list level :=
  fold_left (fun d s => add_level (p_level (s_patch s) - 1) (spacing (s_patch s)) d) l [].
(** claw_vtk.py:135-137 *)
Definition blocks_per_level (d : list level) : list nat := map v_count (sorted v_level d).

(** A vtkUniformGrid: origin, spacing, number of nodes, cell data with the first direction fastest *)
Record grid := mkGrid { g_origin : list Q; g_spacing : list Q; g_nodes : list Z; g_data : list (text * list Q) }.
Definition range (n : Z) : list Z := map Z.of_nat (seq 0 (Z.to_nat n)).
(** q_i.transpose().ravel() *)
Definition ravel (p : patch) (f : Z -> Z -> Q) : list Q :=
  flat_map (fun j => map (fun i => f i j) (range (p_nx p))) (range (p_ny p)).
Record amr := mkAmr { m_origin : list Q; m_sets : list (Z * nat * grid) }.

Section Write.
Variable single : Q -> Q.

(** claw_vtk.py:164-211: all components of q but the last, which marks the cells *)
Definition grid_of (sp : list Q) (s : state) : grid :=
  let p := s_patch s in
  let q := s_q s in
  mkGrid [p_xlo p; p_ylo p; 0] sp [p_nx p + 1; p_ny p + 1; 1]%Z
    (map (fun iq => (lit "q_" ++ str_nat (Z.of_nat (fst iq)), map single (ravel p (snd iq))))
         (combine (seq 0 (length q - 1)) (removelast q))
     ++ [(lit "vtkGhostType", ravel p (last q (fun _ _ => 0)))]).
(** claw_vtk.py:159-218: the blocks [index ..] of a level; [n] blocks are left *)
Fixpoint fill_blocks (k : Z) (sp : list Q) (ss : list state) (n index : nat) : result (list (Z * nat * grid)) :=
  match n, ss with
  | O, _ => Ok []
  | S _, [] => Err BadLevel
  | S n', s :: r => b <- fill_blocks k sp r n' (S index) ;; Ok ((k, index, grid_of sp s) :: b)
  end.
(** claw_vtk.py:145-221: [ss] are the sorted states from global_index on. A negative level is an error: VTK
    takes unsigned numbers. *)
Fixpoint fill_levels (d : list level) (blocks : list nat) (ss : list state) : result (list (Z * nat * grid)) :=
  match d with
  | [] => Ok []
  | e :: r =>
      match (if (v_level e <? 0)%Z then None else nth_error blocks (Z.to_nat (v_level e))) with
      | None => Err BadLevel
      | Some n =>
          b <- fill_blocks (v_level e) (v_spacing e) ss n 0 ;;
          rest <- fill_levels r blocks (skipn n ss) ;;
          Ok (b ++ rest)
      end
  end.

Definition files := text -> option amr.
Definition text_eqb (a b : text) : bool := if list_eq_dec ascii_dec a b then true else false.
(** claw_vtk.py:224; the path is a directory name without a final slash *)
Definition file_name (path prefix : text) (frame : Z) : text :=
  path ++ c_slash :: prefix ++ zfill4 frame ++ lit ".vthb".
(** claw_vtk.py:106-233 write: the states of the solution afterwards and the files. *)
Definition write (fs : files) (path prefix : text) (frame : Z) (l : list state) : list state * result files :=
  let l' := set_status l in
  (l',
   match l' with
   | [] => Err NoStates
   | s :: _ =>
       let d := level_count l' in
       sets <- fill_levels d (blocks_per_level d) (sorted (fun s => p_level (s_patch s)) l') ;;
       Ok (fun n => if text_eqb n (file_name path prefix frame)
                    then Some (mkAmr [p_xlo (s_patch s); p_ylo (s_patch s); 0] sets) else fs n)
   end).
End Write.
