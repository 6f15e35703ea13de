(** How domains and solutions are put together: the constructors Patch and Domain of src/pyclaw/geometry.py,
    State of src/pyclaw/state.py, Solution of src/pyclaw/solution.py; and the coordinate arrays of a Grid
    with ghost cells and of one cell. *)
From Coq Require Import Ascii String.
From Verif Require Import Base FormatModel GeometryModel.
Open Scope Q_scope.

Inductive error :=
| AssertFails     (* AssertionError: Dimension._check_validity *)
| Invalid         (* Exception: invalid arguments, two dimensions of one name *)
| TypeErr | IndexErr | KeyErr | ValueErr
| NoAttribute     (* AttributeError *)
| NotModelled.    (* lists that mix objects of different classes *)
Definition bind {A B} (r : A + error) (f : A -> B + error) : B + error :=
  match r with inl a => f a | inr e => inr e end.

(** ** Patches and domains *)
(** geometry.py:599-623 Dimension: its name, and the rest *)
Record ndim := mkND { nd_name : text; nd_dim : dim }.
(** geometry.py:684-700 Patch; level and patch_index are left out.  Patch and Grid hold the same Dimension
    objects. *)
Definition patch := list ndim.

Definition name_in (name : text) (l : list ndim) : bool :=
  existsb (fun d => if list_eq_dec ascii_dec name (nd_name d) then true else false) l.
(** geometry.py:693-696, 702-717 and 219-220, 231-249: the dimensions are added one after another; [seen]
    are those added already.  Names that are attributes of a Patch or Grid are not modelled. *)
Fixpoint add_dims (seen ds : list ndim) : list ndim + error :=
  match ds with
  | [] => inl seen
  | d :: r => if name_in (nd_name d) seen then inr Invalid else add_dims (seen ++ [d]) r
  end.
(** geometry.py:684-700 Patch(dimensions); 249 the mapping of a Grid with more than three dimensions does not exist *)
Definition new_patch (ds : list ndim) : patch + error :=
  bind (add_dims [] ds) (fun l => if (length l <=? 3)%nat then inl l else inr KeyErr).

(** geometry.py:787-790: zip stops at the end of the shortest list *)
Fixpoint zip_dims (lower upper : list Q) (n : list Z) (names : list text) : list ndim + error :=
  match lower, upper, n, names with
  | lo :: lower', up :: upper', k :: n', name :: names' =>
      match new_dim lo up k with
      | None => inr AssertFails
      | Some d => bind (zip_dims lower' upper' n' names') (fun r => inl (mkND name d :: r))
      end
  | _, _, _, _ => inl []
  end.
(** geometry.py:782-791 Domain(lower, upper, n) *)
Definition domain3 (lower upper : list Q) (n : list Z) : list patch + error :=
  bind (zip_dims lower upper n (firstn (length n + 1) [lit "x"; lit "y"; lit "z"]))
       (fun ds => bind (new_patch ds) (fun p => inl [p])).

(** objects that can be in the list given to Domain or Solution *)
Inductive gitem := IDim (d : ndim) | IPatch (p : patch) | IOther.
(** a Domain, a list or tuple, or another object *)
Inductive geom := GDomain (ps : list patch) | GSeq (l : list gitem) | GOne (i : gitem).

Fixpoint all_patches (l : list gitem) : list patch + error :=
  match l with
  | [] => inl []
  | IPatch p :: r => bind (all_patches r) (fun ps => inl (p :: ps))
  | _ :: _ => inr NotModelled
  end.
Fixpoint all_dims (l : list gitem) : list ndim + error :=
  match l with
  | [] => inl []
  | IDim d :: r => bind (all_dims r) (fun ds => inl (d :: ds))
  | _ :: _ => inr NotModelled
  end.
(** geometry.py:793-799 Domain(geom).  For other objects the constructor returns a Domain without patches,
    whose first use raises. *)
Definition domain1 (g : list gitem) : list patch + error :=
  match g with
  | [] => inr IndexErr
  | IPatch _ :: _ => all_patches g
  | IDim _ :: _ => bind (all_dims g) (fun ds => bind (new_patch ds) (fun p => inl [p]))
  | IOther :: _ => inr NoAttribute
  end.

(** ** States and solutions *)
(** state.py:119-152 State: the patch and the numbers of components *)
Record state := mkSt { st_patch : patch; st_num_eqn : Z; st_num_aux : Z }.
(** state.py:119-152 State(domain, num_eqn, num_aux): on the first patch; np.empty refuses negative sizes
    (330-335) *)
Definition new_state (ps : list patch) (num_eqn num_aux : Z) : state + error :=
  match ps with
  | [] => inr IndexErr
  | p :: _ => if ((num_eqn <? 0) || (num_aux <? 0))%Z%bool then inr ValueErr else inl (mkSt p num_eqn num_aux)
  end.

(** the first argument of Solution: an integer, a State, a list or tuple, another object *)
Inductive sitem := EState (s : state) | ENum (n : Z) | EOther.
Inductive sarg := SNum (n : Z) | SState (s : state) | SSeq (l : list sitem) | SOther.
(** the attribute states: normally a list; solution.py:170 makes it a State *)
Inductive states_value := StateList (l : list state) | OneState (s : state).
Record solution := mkSol { so_states : states_value; so_domain : list patch }.

Fixpoint only_states (l : list sitem) : list state + error :=
  match l with
  | [] => inl []
  | EState s :: r => bind (only_states r) (fun ss => inl (s :: ss))
  | _ :: _ => inr NotModelled
  end.
(** solution.py:149-159: the domain.  152-153 raise TypeError for every object that is no list or tuple: a Patch
    or a Dimension cannot be iterated, and arg is a tuple, which cannot be assigned to. *)
Definition solution_domain (g : geom) : list patch + error :=
  match g with
  | GDomain ps => inl ps
  | GOne _ => inr TypeErr
  | GSeq [] => inr IndexErr
  | GSeq (IDim d :: r) => bind (all_dims (IDim d :: r)) (fun ds => bind (new_patch ds) (fun p => domain1 [IPatch p]))
  | GSeq (IPatch p :: r) => domain1 (IPatch p :: r)
  | GSeq (IOther :: _) => inr Invalid
  end.
(** solution.py:162-176: the states *)
Definition solution_states (a : sarg) (ps : list patch) : states_value + error :=
  match a with
  | SState s => inl (StateList [s])
  | SSeq [] => inr IndexErr
  | SSeq (EState s :: r) => bind (only_states (EState s :: r)) (fun ss => inl (StateList ss))
  | SSeq (ENum n :: ENum k :: _) => bind (new_state ps n k) (fun s => inl (OneState s))
  | SSeq [ENum _] => inr IndexErr
  | SSeq (ENum _ :: _) => inr NotModelled
  | SSeq (EOther :: _) => inr Invalid
  | SNum n => bind (new_state ps n 0) (fun s => inl (StateList [s]))
  | SOther => inr Invalid
  end.
(** solution.py:147-176 Solution(a, g) *)
Definition new_solution (a : sarg) (g : geom) : solution + error :=
  bind (solution_domain g) (fun ps => bind (solution_states a ps) (fun ss => inl (mkSol ss ps))).
(** solution.py:88-90 Solution.state, also used for every attribute taken from the state (224-231) *)
Definition base_state (s : solution) : state + error :=
  match so_states s with
  | StateList (x :: _) => inl x
  | StateList [] => inr IndexErr
  | OneState _ => inr TypeErr
  end.

(** ** Coordinate arrays *)
(** a numpy array: its shape, and its entry at a list of indices *)
Record ndarray := mkArr { shape : list Z; at_ : list Z -> Q }.
(** a[index[i,...]] with index = np.indices(sizes) for the i-th of the arrays: an IndexError if the array is shorter than its size *)
Fixpoint mesh_from (i : nat) (sizes all : list Z) (arrs : list (list Q)) : list ndarray + error :=
  match sizes, arrs with
  | n :: sizes', a :: arrs' =>
      if (Z.of_nat (length a) <? n)%Z then inr IndexErr
      else bind (mesh_from (S i) sizes' all arrs')
                (fun r => inl (mkArr all (fun ix => nth (Z.to_nat (nth i ix 0%Z)) a 0) :: r))
  | _, _ => inl []
  end.
Definition mesh (sizes : list Z) (arrs : list (list Q)) : list ndarray + error := mesh_from 0 sizes sizes arrs.
(** geometry.py:335-348 Grid.c_centers_with_ghost *)
Definition c_centers_with_ghost (ng : Z) (ds : list dim) : list ndarray + error :=
  mesh (map (fun d => x_n d + 2 * ng)%Z ds) (map (fun d => fst (centers_with_ghost ng d)) ds).
(** geometry.py:350-363 Grid.c_nodes_with_ghost *)
Definition c_nodes_with_ghost (ng : Z) (ds : list dim) : list ndarray + error :=
  mesh (map (fun d => x_n d + 2 * ng + 1)%Z ds) (map (fun d => fst (nodes_with_ghost ng d)) ds).
(** geometry.py:277-288: the property c_centers as arrays, for a grid whose arrays are not outdated (C38) *)
Definition c_centers (ds : list dim) : list ndarray + error :=
  mesh (map x_n ds) (map (fun d => fst (read_centers d)) ds).
(** geometry.py:365-369 p_centers_with_ghost and p_nodes_with_ghost: the mapping applied to them *)
Definition p_centers_with_ghost {P} (mapc2p : list ndarray -> P) (ng : Z) (ds : list dim) : P + error :=
  bind (c_centers_with_ghost ng ds) (fun l => inl (mapc2p l)).
Definition p_nodes_with_ghost {P} (mapc2p : list ndarray -> P) (ng : Z) (ds : list dim) : P + error :=
  bind (c_nodes_with_ghost ng ds) (fun l => inl (mapc2p l)).

(** Python's index: negative ones count from the end *)
Definition wrap (n i : Z) : option Z :=
  if ((0 <=? i) && (i <? n))%Z%bool then Some i else if ((- n <=? i) && (i <? 0))%Z%bool then Some (i + n)%Z else None.
Fixpoint wrap_all (n : Z) (l : list Z) : option (list Z) :=
  match l with
  | [] => Some []
  | i :: r => match wrap n i, wrap_all n r with Some j, Some js => Some (j :: js) | _, _ => None end
  end.
Fixpoint wrap_each (ns l : list Z) : option (list Z) :=
  match ns, l with
  | n :: ns', i :: r => match wrap n i, wrap_each ns' r with Some j, Some js => Some (j :: js) | _, _ => None end
  | [], [] => Some []
  | _, _ => None
  end.
(** a[index] with index a list of 0-dimensional integer arrays.  [as_tuple]: numpy before 1.23 takes the list
    for a tuple, one index per axis (a list of another length than the number of axes is not modelled); since
    1.23 it is an array of indices for the first axis. *)
Definition index_by_list (as_tuple : bool) (a : ndarray) (index : list Z) : ndarray + error :=
  if as_tuple then
    match wrap_each (shape a) index with Some ix => inl (mkArr [] (fun _ => at_ a ix)) | None => inr IndexErr end
  else
    match shape a with
    | [] => inr IndexErr
    | n :: rest =>
        match wrap_all n index with
        | None => inr IndexErr
        | Some js => inl (mkArr (Z.of_nat (length js) :: rest)
                            (fun ix => match ix with k :: r => at_ a (nth (Z.to_nat k) js 0%Z :: r) | [] => 0 end))
        end
    end.
Fixpoint index_all (as_tuple : bool) (l : list ndarray) (index : list Z) : list ndarray + error :=
  match l with
  | [] => inl []
  | a :: r => bind (index_by_list as_tuple a index) (fun b => bind (index_all as_tuple r index) (fun bs => inl (b :: bs)))
  end.
(** np.array of arrays of the same shape *)
Definition stack (l : list ndarray) : ndarray :=
  mkArr (Z.of_nat (length l) :: match l with a :: _ => shape a | [] => [] end)
        (fun ix => match ix with k :: r => at_ (nth (Z.to_nat k) l (mkArr [] (fun _ => 0))) r | [] => 0 end).
(** geometry.py:325-329 Grid.c_center *)
Definition c_center (as_tuple : bool) (ds : list dim) (ind : list Z) : ndarray + error :=
  bind (c_centers ds) (fun cs => bind (index_all as_tuple cs ind) (fun l => inl (stack l))).
