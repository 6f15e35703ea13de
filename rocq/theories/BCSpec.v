(** Specification of ghost-cell values (C13-C16). *)
From Verif Require Import Base BCModel.

(** Which interior cell a (possibly ghost) position takes its value from; positions are counted from
    the first interior cell, there are [n] cells. *)
Definition source_cell (lo hi : bctype) (n i : Z) : Z :=
  if Z.ltb i 0 then
    match lo with
    | Periodic => (i + n)%Z          (* wrap around *)
    | Wall => (-1 - i)%Z             (* mirror image *)
    | _ => 0%Z                       (* extrapolation: nearest interior cell *)
    end
  else if Z.leb n i then
    match hi with
    | Periodic => (i - n)%Z
    | Wall => (2 * n - 1 - i)%Z
    | _ => (n - 1)%Z
    end
  else i.

(** Is the position a ghost cell behind a wall? *)
Definition behind_wall (lo hi : bctype) (n i : Z) : bool :=
  ((Z.ltb i 0 && match lo with Wall => true | _ => false end) ||
   (Z.leb n i && match hi with Wall => true | _ => false end))%bool.

Section Spec.
Variable V : Type.
Variable opp : V -> V.
(** The value the documentation prescribes for q: take the source cell in every dimension, and change
    the sign once for every wall the position is behind, if the component is that dimension's normal
    velocity. *)
Definition q_ghost_value (Ds : list dimbc) (q : arr V) (c : Z) (pos : list Z) : V :=
  let src := map (fun p => source_cell (q_lo (fst p)) (q_hi (fst p)) (ncells (fst p)) (snd p)) (combine Ds pos) in
  fold_right (fun p v => if (Z.eqb c (reflect (fst p)) &&
                             behind_wall (q_lo (fst p)) (q_hi (fst p)) (ncells (fst p)) (snd p))%bool
                         then opp v else v)
             (q c src) (rev (combine Ds pos)).
Definition aux_ghost_value (Ds : list dimbc) (aux : arr V) (c : Z) (pos : list Z) : V :=
  aux c (map (fun p => source_cell (a_lo (fst p)) (a_hi (fst p)) (ncells (fst p)) (snd p)) (combine Ds pos)).
End Spec.

Definition standard (ty : bctype) : Prop := ty = Extrap \/ ty = Periodic \/ ty = Wall.

(** Wide enough for mirroring or wrapping [ng] cells; extrapolation needs one cell only. *)
Definition wide (ng : nat) (lo hi : bctype) (n : Z) : Prop :=
  (lo = Extrap \/ Z.of_nat ng <= n)%Z /\ (hi = Extrap \/ Z.of_nat ng <= n)%Z /\ (1 <= n)%Z.

(** A dimension with standard boundary conditions, both boundaries on this process, wide enough, and
    with the normal velocity among the [neq] components if there is a wall. *)
Definition fit_dim (ng : nat) (has_aux : bool) (neq : Z) (D : dimbc) : Prop :=
  on_lo D = true /\ on_hi D = true /\
  (q_lo D = Wall \/ q_hi D = Wall -> 0 <= reflect D < neq)%Z /\
  standard (q_lo D) /\ standard (q_hi D) /\ wide ng (q_lo D) (q_hi D) (ncells D) /\
  (has_aux = true -> standard (a_lo D) /\ standard (a_hi D) /\ wide ng (a_lo D) (a_hi D) (ncells D)).

(** A position (counted from the first interior cell) inside the ghosted array. *)
Fixpoint in_box (ng : nat) (Ds : list dimbc) (pos : list Z) : Prop :=
  match Ds, pos with
  | [], [] => True
  | D :: Ds, i :: pos => (- Z.of_nat ng <= i < ncells D + Z.of_nat ng)%Z /\ in_box ng Ds pos
  | _, _ => False
  end.

(** Why one array at one side cannot be filled, if it cannot. *)
Definition type_fault (ng : nat) (ty : bctype) (has_fun isq : bool) (refl neq : Z) : option bcerr :=
  match ty with
  | Unset => Some ENotSpecified
  | Unknown => Some ENotImplemented
  | Custom => if has_fun then None else Some ENoFunction
  | Wall => if (isq && Nat.ltb 0 ng && negb (Z.leb 0 refl && Z.ltb refl neq))%bool then Some EIndex else None
  | Extrap | Periodic => None
  end.
Definition is_some {A} (o : option A) : bool := match o with Some _ => true | None => false end.

(** The faults of one side (aux before q), none unless it is a physical boundary. *)
Definition side_faults {V} (ng : nat) (lower has_aux : bool) (F : userfuns V) (neq : Z) (D : dimbc) : list bcerr :=
  if (if lower then on_lo D else on_hi D) then
    (if has_aux then
       match type_fault ng (if lower then a_lo D else a_hi D)
               (is_some (if lower then f_a_lo V F else f_a_hi V F)) false (reflect D) neq with
       | Some e => [e] | None => [] end
     else []) ++
    match type_fault ng (if lower then q_lo D else q_hi D)
            (is_some (if lower then f_q_lo V F else f_q_hi V F)) true (reflect D) neq with
    | Some e => [e] | None => [] end
  else [].
(** The faults of one dimension in the order in which the sides are visited. *)
Definition dim_faults {V} (ng : nat) (has_aux : bool) (F : userfuns V) (neq : Z) (D : dimbc) : list bcerr :=
  side_faults ng true has_aux F neq D ++ side_faults ng false has_aux F neq D.

(** A position inside the domain. *)
Fixpoint in_domain (Ds : list dimbc) (pos : list Z) : Prop :=
  match Ds, pos with
  | [], [] => True
  | D :: Ds, i :: pos => (0 <= i < ncells D)%Z /\ in_domain Ds pos
  | _, _ => False
  end.
