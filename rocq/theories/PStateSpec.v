(** States of serial and parallel programs: proper use, and totals. *)
From Coq Require Import Permutation.
From Verif Require Import Base PStateModel.

(** What is known about one array of a state: absent, or present with its number of components, the ghost cells it was set up for, and
    whether its values have been set *)
Inductive known := Absent | Present (comps ghost : nat) (ready : bool).
Record usage := mkU { u_q : known; u_aux : known; u_p : known; u_F : known }.
Definition known_of (v : field) (u : usage) : known := match v with FQ => u_q u | FAux => u_aux u | FP => u_p u | FF => u_F u end.
Definition know (v : field) (k : known) (u : usage) : usage :=
  match v with
  | FQ => mkU k (u_aux u) (u_p u) (u_F u) | FAux => mkU (u_q u) k (u_p u) (u_F u)
  | FP => mkU (u_q u) (u_aux u) k (u_F u) | FF => mkU (u_q u) (u_aux u) (u_p u) k
  end.
Definition is_ready (k : known) : bool := match k with Present _ _ b => b | Absent => false end.
(** an array for these cells with c components *)
Definition fits (cells : list nat) (c : nat) (a : nd) : bool := (same_shape (shape a) (c :: cells) && (length (data a) =? size (c :: cells))%nat)%bool.
Definition number_field (n : number) : field := match n with NEqn => FQ | NAux => FAux | NP => FP | NF => FF end.
Definition set_ghost (w : nat) (k : known) : known := match k with Present c _ b => Present c w b | Absent => Absent end.

(** Proper use: [None] if the operation is not allowed. Values are set before they are read, arrays have the right shape, p and F are
    created by mp and mF, F is written to and not assigned, and ghost cells are asked for as they were set up. *)
Definition use (cells : list nat) (u : usage) (o : op) : option usage :=
  match o with
  | Read v => if is_ready (known_of v u) then Some u else match v, u_aux u with FAux, Absent => Some u | _, _ => None end
  | Assign v a =>
      match v, known_of v u with
      | FF, _ => None
      | FAux, Absent => match shape a with S c :: _ => if fits cells (S c) a then Some (know FAux (Present (S c) 0 true) u) else None | _ => None end
      | _, Absent => None
      | _, Present c w _ => if fits cells c a then Some (know v (Present c w true) u) else None
      end
  | Fill v a => match known_of v u with Present c w _ => if fits cells c a then Some (know v (Present c w true) u) else None | Absent => Some u end
  | Poke v ix x => match known_of v u with Present _ _ false => None | _ => Some u end
  | Num n => match n, known_of (number_field n) u with NP, Absent | NF, Absent => None | _, _ => Some u end
  | SetNum n k =>
      match n with
      | NP | NF => match known_of (number_field n) u with
                   | Absent => if (1 <=? k)%nat then Some (know (number_field n) (Present k 0 false) u) else None
                   | _ => Some u
                   end
      | _ => Some u
      end
  | SumF i => match u_F u with Present c _ true => if (i <? c)%nat then Some u else None | _ => None end
  | SetGhost w => Some (mkU (set_ghost w (u_q u)) (set_ghost w (u_aux u)) (u_p u) (u_F u))
  | Interior v ng =>
      match v, known_of v u with
      | FQ, Present _ w true | FAux, Present _ w true => if ((ng =? w)%nat && (1 <=? ng)%nat)%bool then Some u else None
      | _, _ => None
      end
  | DeepCopy => match u_q u with Present _ w _ => Some (mkU (u_q u) (set_ghost w (u_aux u)) Absent Absent) | Absent => None end
  end.
Fixpoint proper (cells : list nat) (u : usage) (l : list op) : bool :=
  match l with [] => true | o :: r => match use cells u o with Some u' => proper cells u' r | None => false end end.
(** a new state *)
Definition new_usage (neqn naux : nat) : usage :=
  mkU (Present neqn 0 false) (if (naux =? 0)%nat then Absent else Present naux 0 false) Absent Absent.

(** The total of a functional: the sum of component i over all cells; the cells of a serial array belong to the processes *)
Definition total (c i : nat) (l : list Q) : Q := fold_right Qplus 0 (component c i l).
Definition distributed (c : nat) (whole : list Q) (parts : list (list Q)) : Prop :=
  forall i, (i < c)%nat -> Permutation (component c i whole) (concat (map (component c i) parts)).
