(** The attributes of a Solution and of its states, and which states a solver advances: src/pyclaw/solution.py
    (__getattr__, __setattr__, set_all_states), src/pyclaw/state.py (mp, mF, p, F), src/pyclaw/solver.py
    (evolve_to_time).

    Simplifications: arrays are lists of numbers and assigned as a whole; of the attributes that Solution passes on to
    states[0], those that can be assigned on a state are modelled. *)
From Verif Require Import Base.

Inductive key := KT | KMp | KMF | KQ | KAux | KP | KF | KData.
Definition key_eqb (a b : key) : bool :=
  match a, b with
  | KT, KT | KMp, KMp | KMF, KMF | KQ, KQ | KAux, KAux | KP, KP | KF, KF | KData, KData => true
  | _, _ => false
  end.
Inductive value := VNone | VNum (x : Q) | VArr (rows : Z) (l : list Q).

(** state.py:80-160. p and F are None or arrays. *)
Record state := mkState { t : Q; q : value; aux : value; p : value; F : value; data : value }.
(** states and the instance dictionary of the solution *)
Record solution := mkSolution { states : list state; own : key -> option value }.

Definition rows_of (v : value) : value :=
  match v with VArr n _ => VNum (inject_Z n) | _ => VNum 0 end.
(** attribute of a state; state.py:80-113 for the properties mp and mF *)
Definition get_state (k : key) (s : state) : value :=
  match k with
  | KT => VNum (t s) | KMp => rows_of (p s) | KMF => rows_of (F s)
  | KQ => q s | KAux => aux s | KP => p s | KF => F s | KData => data s
  end.
(** setattr(state,k,v); None: it raises. new_array leaves the contents of the array undefined, recorded as []. *)
Definition set_state (k : key) (v : value) (s : state) : option state :=
  match k with
  | KT => match v with VNum x => Some (mkState x (q s) (aux s) (p s) (F s) (data s)) | _ => None end
  | KMp => match p s, v with
           | VNone, VNum n => Some (mkState (t s) (q s) (aux s) (VArr (Qnum n) []) (F s) (data s))
           | _, _ => None
           end
  | KMF => match F s, v with
           | VNone, VNum n => Some (mkState (t s) (q s) (aux s) (p s) (VArr (Qnum n) []) (data s))
           | _, _ => None
           end
  | KQ => Some (mkState (t s) v (aux s) (p s) (F s) (data s))
  | KAux => Some (mkState (t s) (q s) v (p s) (F s) (data s))
  | KP => Some (mkState (t s) (q s) (aux s) v (F s) (data s))
  | KF => Some (mkState (t s) (q s) (aux s) (p s) v (data s))
  | KData => Some (mkState (t s) (q s) (aux s) (p s) (F s) v)
  end.

(** solution.py:68-76: __getattr__ is called for names that are not in the instance dictionary; IndexError if there
    are no states *)
Definition get (k : key) (s : solution) : option value :=
  match own s k with
  | Some v => Some v
  | None => match states s with st :: _ => Some (get_state k st) | [] => None end
  end.

(** solution.py:209-221 set_all_states with overwrite=True; None: a state raised *)
Fixpoint set_all (k : key) (v : value) (l : list state) : option (list state) :=
  match l with
  | [] => Some []
  | st :: r =>
      match set_state k v st with
      | Some st' => match set_all k v r with Some r' => Some (st' :: r') | None => None end
      | None => None
      end
  end.
(** solution.py:78-82 __setattr__ *)
Definition set (k : key) (v : value) (s : solution) : option solution :=
  match k with
  | KT | KMp | KMF => match set_all k v (states s) with Some l => Some (mkSolution l (own s)) | None => None end
  | _ => Some (mkSolution (states s) (fun k' => if key_eqb k' k then Some v else own s k'))
  end.

Section Evolve.
  (** what the steps of evolve_to_time make of the first state: the new q and the time reached *)
  Variable advance : state -> Q -> value * Q.

  (** solver.py:549-650 evolve_to_time: steps use solution.states[0] (classic/solver.py:281, sharpclaw/solver.py:
      step), and each accepted step assigns solution.t *)
  Definition evolve (tend : Q) (s : solution) : option solution :=
    match states s with
    | [] => None
    | st :: r =>
        let '(q', t') := advance st tend in
        match set KT (VNum t') (mkSolution (mkState (t st) q' (aux st) (p st) (F st) (data st) :: r) (own s)) with
        | Some s' => Some s'
        | None => None
        end
    end.

  Inductive op :=
  | Set_ (k : key) (v : value)                      (* solution.k = v *)
  | SetOn (i : nat) (k : key) (v : value)           (* solution.states[i].k = v *)
  | Evolve (tend : Q).
  Definition exec (o : op) (s : solution) : option solution :=
    match o with
    | Set_ k v => set k v s
    | SetOn i k v =>
        match nth_error (states s) i with
        | None => None
        | Some st =>
            match set_state k v st with
            | Some st' => Some (mkSolution (firstn i (states s) ++ st' :: skipn (S i) (states s)) (own s))
            | None => None
            end
        end
    | Evolve tend => evolve tend s
    end.
  Fixpoint exec_all (os : list op) (s : solution) : option solution :=
    match os with
    | [] => Some s
    | o :: r => match exec o s with Some s' => exec_all r s' | None => None end
    end.
End Evolve.
(** A solution built from its states (solution.py:105-186) *)
Definition built (l : list state) : solution := mkSolution l (fun _ => None).
