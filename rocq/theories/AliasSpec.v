(** What a program means to a user who does not think about memory: every solution has values of its own, and an
    operation changes the solution it names and no other. *)
From Verif Require Import Base AliasModel.
Local Open Scope nat_scope.

Record value := mkValue { u_shape : list nat; u_vals : list Q }.
Record meaning := mkMeaning { m_sols : list value; m_ghosts : list nat }.

Definition set_value (x : nat) (u : value) (m : meaning) : meaning :=
  mkMeaning (firstn x (m_sols m) ++ u :: skipn (S x) (m_sols m)) (m_ghosts m).
Definition update (x : nat) (f : value -> value) (m : meaning) : option meaning :=
  match nth_error (m_sols m) x with
  | Some u => Some (set_value x (f u) m)
  | None => None
  end.

(** Fortran-ordered arrays of shape [pad g sh]: the positions of the cells that are not ghost cells. *)
Fixpoint interior_from (g k : nat) (ns : list nat) : list nat :=
  match ns with
  | [] => [0]
  | n :: r => flat_map (fun p => map (fun i => p + (g + i) * k) (seq 0 n)) (interior_from g (k * (n + 2 * g)) r)
  end.
Definition interior (g : nat) (sh : list nat) : list nat :=
  match sh with
  | [] => [0]
  | m :: ns => flat_map (fun p => map (fun i => p + i) (seq 0 m)) (interior_from g m ns)
  end.
(** The hyperbolic part of a step as a map of the values of a solution: put them into an array with ghost cells,
    apply [hyp], take the interior. *)
Definition hyperbolic (g : nat) (sh : list nat) (hyp : list Q -> list Q) (u : list Q) : list Q :=
  get_at (interior g sh) (hyp (put_at (interior g sh) u (repeat 0%Q (prod (pad g sh))))).

Definition means (o : op) (m : meaning) : option meaning :=
  match o with
  | New sh vs => Some (mkMeaning (m_sols m ++ [mkValue sh vs]) (m_ghosts m))
  | Copy x =>
      match nth_error (m_sols m) x with
      | Some u => Some (mkMeaning (m_sols m ++ [u]) (m_ghosts m))
      | None => None
      end
  | Assign x vs => update x (fun u => mkValue (u_shape u) vs) m
  | Write x f => update x (fun u => mkValue (u_shape u) (f (u_vals u))) m
  | NewSolver g => Some (mkMeaning (m_sols m) (m_ghosts m ++ [g]))
  | Setup s x =>
      match nth_error (m_ghosts m) s, nth_error (m_sols m) x with
      | Some _, Some _ => Some m
      | _, _ => None
      end
  | Step s x before hyp after ok =>
      match nth_error (m_ghosts m) s with
      | Some g =>
          update x (fun u => if ok
                             then mkValue (u_shape u)
                                    (after (hyperbolic g (u_shape u) hyp (before (u_vals u))))
                             else u) m
      | None => None
      end
  end.

(** Functions keep the number of values; what ghost cells held before does not matter (property C24 shows it of
    the 1D solver); there is at least one layer of ghost cells. *)
Definition keeps_size (n : nat) (f : list Q -> list Q) : Prop :=
  forall u, length u = n -> length (f u) = n.
Definition fills_ghosts (g : nat) (sh : list nat) (hyp : list Q -> list Q) : Prop :=
  keeps_size (prod (pad g sh)) hyp /\
  forall a b, length a = prod (pad g sh) -> length b = prod (pad g sh) ->
    get_at (interior g sh) a = get_at (interior g sh) b -> hyp a = hyp b.

(** An operation in a program in which classic solver s is used for solution [owner s] only *)
Definition proper (owner : nat -> nat) (m : meaning) (o : op) : Prop :=
  match o with
  | New sh vs => sh <> [] /\ length vs = prod sh
  | Copy x => x < length (m_sols m)
  | Assign x vs => exists u, nth_error (m_sols m) x = Some u /\ length vs = prod (u_shape u)
  | Write x f => exists u, nth_error (m_sols m) x = Some u /\ keeps_size (prod (u_shape u)) f
  | NewSolver g => 0 < g
  | Setup s x => s < length (m_ghosts m) /\ x = owner s /\ x < length (m_sols m)
  | Step s x before hyp after ok =>
      exists u g, x = owner s /\ nth_error (m_sols m) x = Some u /\ nth_error (m_ghosts m) s = Some g /\
        keeps_size (prod (u_shape u)) before /\ fills_ghosts g (u_shape u) hyp /\
        keeps_size (prod (u_shape u)) after
  end.
(** A program, with its meaning *)
Inductive program (owner : nat -> nat) : meaning -> list op -> meaning -> Prop :=
| P_nil m : program owner m [] m
| P_cons m o m' os m'' :
    proper owner m o -> means o m = Some m' -> program owner m' os m'' -> program owner m (o :: os) m''.
Definition nothing : meaning := mkMeaning [] [].

(** The solution that an operation is meant to change *)
Definition changes (o : op) : option nat :=
  match o with
  | Assign x _ | Write x _ | Step _ x _ _ _ _ => Some x
  | New _ _ | Copy _ | NewSolver _ | Setup _ _ => None
  end.
(** Programs with solutions in one space dimension; programs in which no step of a classic solver is accepted
    (SharpClaw steps assign or update state.q) *)
Definition in_one_dimension (o : op) : Prop := match o with New sh _ => length sh = 2 | _ => True end.
Definition no_accepted_classic_step (o : op) : Prop :=
  match o with Step _ _ _ _ _ ok => ok = false | _ => True end.
