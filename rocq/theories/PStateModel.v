(** The attributes of a State in a serial program (src/pyclaw/state.py) and on a process of a parallel program
    (src/petclaw/state.py), and the totals of output functionals (sum_F, Controller.write_F).

    A numpy array is its shape and its values in Fortran order.  New arrays have any contents in the serial program
    (np.empty) and zeros in a PETSc vector.  [cells] is grid.num_cells: the cells of the patch, or of the part that belongs to
    the process. *)
From Verif Require Import Base.

Record nd := mkNd { shape : list nat; data : list Q }.
Inductive field := FQ | FAux | FP | FF.
Inductive number := NEqn | NAux | NP | NF.
Inductive error := AttributeErr | TypeErr | IndexErr | ValueErr | PlainErr | PetscErr.
Inductive obs := OArr (a : nd) | ONone | OZero | ONum (n : nat) | OSum (x : Q) | ODone | ORaised (e : error).

(** What a program does with a state *)
Inductive op :=
| Read (v : field)                          (* state.q, state.aux, state.p, state.F *)
| Assign (v : field) (a : nd)               (* state.q = a *)
| Fill (v : field) (a : nd)                 (* state.q[...] = a *)
| Poke (v : field) (ix : list nat) (x : Q)  (* state.q[m,i,j] = x *)
| Num (n : number)                          (* state.num_eqn, num_aux, mp, mF *)
| SetNum (n : number) (k : nat)             (* state.mp = k *)
| SumF (i : nat)                            (* state.sum_F(i), the part of the process *)
| SetGhost (ng : nat)                       (* state.set_num_ghost(ng) *)
| Interior (v : field) (ng : nat)           (* the interior of state.get_qbc_from_q(ng,qbc), get_auxbc_from_aux *)
| DeepCopy.                                 (* state = copy.deepcopy(state) *)

(** number of entries of an array *)
Definition size (sh : list nat) : nat := fold_right Nat.mul 1%nat sh.
Definition same_shape (a b : list nat) : bool := if list_eq_dec Nat.eq_dec a b then true else false.
(** place of an entry in Fortran order; [None]: IndexError *)
Fixpoint offset (sh ix : list nat) : option nat :=
  match sh, ix with
  | [], [] => Some 0%nat
  | n :: sh', i :: ix' => if (i <? n)%nat then option_map (fun k => i + n * k)%nat (offset sh' ix') else None
  | _, _ => None
  end.
Fixpoint put (k : nat) (x : Q) (l : list Q) : list Q :=
  match l with [] => [] | y :: r => match k with O => x :: r | S k' => y :: put k' x r end end.
(** entries of component i of c *)
Definition component (c i : nat) (l : list Q) : list Q := map (fun k => nth (i + c * k) l 0) (seq 0 (length l / c)).
Definition qsum (l : list Q) : Q := fold_right Qplus 0 l.
(** state.py:326-328 np.sum(np.abs(F[i,...])); petclaw/state.py:264-265 strideNorm(i,0), the 1-norm of every c-th entry from i *)
Definition sum_abs (c i : nat) (l : list Q) : Q := qsum (map Qabs (component c i l)).
Definition with_data (a : nd) (l : list Q) : nd := mkNd (shape a) l.

Section State.
Variable cells : list nat.
Variable blank : nat -> list Q. (* contents of np.empty *)

(** ** pyclaw.State: q, aux, p and F are plain attributes *)
Record sstate := mkS { s_q : option nd; s_aux : option nd; s_p : option nd; s_F : option nd }.
Definition s_get (v : field) (s : sstate) : option nd := match v with FQ => s_q s | FAux => s_aux s | FP => s_p s | FF => s_F s end.
Definition s_set (v : field) (a : option nd) (s : sstate) : sstate :=
  match v with
  | FQ => mkS a (s_aux s) (s_p s) (s_F s) | FAux => mkS (s_q s) a (s_p s) (s_F s)
  | FP => mkS (s_q s) (s_aux s) a (s_F s) | FF => mkS (s_q s) (s_aux s) (s_p s) a
  end.
(** state.py:330-335 *)
Definition new_array (c : nat) : option nd := if (c =? 0)%nat then None else Some (mkNd (c :: cells) (blank (size (c :: cells)))).
(** state.py:119-152 *)
Definition s_new (neqn naux : nat) : sstate := mkS (new_array neqn) (new_array naux) None None.
(** state.py:77-88, 94-98 and 106-110: the first size of the array *)
Definition first_size (a : nd) : obs := match shape a with [] => ORaised IndexErr | c :: _ => ONum c end.
Definition s_num (n : number) (s : sstate) : obs :=
  match n with
  | NEqn => match s_q s with None => ORaised PlainErr | Some a => first_size a end
  | NAux => match s_aux s with None => ONum 0 | Some a => first_size a end
  | NP => match s_p s with None => ONum 0 | Some a => first_size a end
  | NF => match s_F s with None => ONum 0 | Some a => first_size a end
  end.
(** writing into an array (numpy): values of the same shape (broadcasting of others is not modelled), or one entry *)
Definition fill (b a : nd) : nd * obs := if same_shape (shape a) (shape b) then (with_data b (data a), ODone) else (b, ORaised ValueErr).
Definition poke (b : nd) (ix : list nat) (x : Q) : nd * obs :=
  match offset (shape b) ix with Some k => (with_data b (put k x (data b)), ODone) | None => (b, ORaised IndexErr) end.
(** the same on an attribute; None has no entries *)
Definition s_write (v : field) (f : nd -> nd * obs) (s : sstate) : sstate * obs :=
  match s_get v s with None => (s, ORaised TypeErr) | Some b => let (b', o) := f b in (s_set v (Some b') s, o) end.
(** One operation: plain attributes (state.py:132-135, 151-152), the setters of mp and mF (99-104, 111-116; num_eqn and num_aux have
    none), sum_F (326-328) and what is cited below *)
Definition s_step (s : sstate) (o : op) : sstate * obs :=
  match o with
  | Read v => (s, match s_get v s with Some a => OArr a | None => ONone end)
  | Assign v a => (s_set v (Some a) s, ODone)
  | Fill v a => s_write v (fun b => fill b a) s
  | Poke v ix x => s_write v (fun b => poke b ix x) s
  | Num n => (s, s_num n s)
  | SetNum NP k => match s_p s with Some _ => (s, ORaised PlainErr) | None => (s_set FP (new_array k) s, ODone) end
  | SetNum NF k => match s_F s with Some _ => (s, ORaised PlainErr) | None => (s_set FF (new_array k) s, ODone) end
  | SetNum _ _ => (s, ORaised AttributeErr)
  | SumF i =>
      (s, match s_F s with
          | None => ORaised TypeErr
          | Some a => match shape a with
                      | [] => ORaised IndexErr
                      | c :: _ => if (i <? c)%nat then OSum (sum_abs c i (data a)) else ORaised IndexErr
                      end
          end)
  | SetGhost _ => (s, ODone)                                                               (* state.py:233-237 *)
  | Interior v ng =>                                                                       (* state.py:271-303 *)
      (s, match v with
          | FQ | FAux =>
              match s_get v s with
              | None => ORaised TypeErr
              | Some a => match shape a with
                          | [] => ORaised ValueErr
                          | c :: sh => if (same_shape sh cells && (1 <=? ng)%nat)%bool then OArr a else ORaised ValueErr
                          end
              end
          | _ => ORaised AttributeErr
          end)
  | DeepCopy =>                                                                            (* state.py:310-324 *)
      match s_num NEqn s, s_num NAux s with
      | ONum _, ONum _ => (mkS (s_q s) (s_aux s) None None, ODone)
      | ONum _, e | e, _ => (s, e)
      end
  end.

(** ** petclaw.State: a PETSc DA with [v_dof] components and stencil width [v_width], and the local part of its vector *)
Record vec := mkV { v_dof : nat; v_width : nat; v_vals : list Q }.
Record pstate := mkP { p_q : vec; p_aux : option vec; p_p : option vec; p_F : option vec }.
Definition p_get (v : field) (s : pstate) : option vec := match v with FQ => Some (p_q s) | FAux => p_aux s | FP => p_p s | FF => p_F s end.
Definition p_set (v : field) (a : vec) (s : pstate) : pstate :=
  match v with
  | FQ => mkP a (p_aux s) (p_p s) (p_F s) | FAux => mkP (p_q s) (Some a) (p_p s) (p_F s)
  | FP => mkP (p_q s) (p_aux s) (Some a) (p_F s) | FF => mkP (p_q s) (p_aux s) (p_p s) (Some a)
  end.
(** petclaw/state.py:165-221: DA and vector with c components *)
Definition create (c width : nat) : vec := mkV c width (repeat 0 (size (c :: cells))).
(** petclaw/state.py:118-163, with a positive number of equations *)
Definition p_new (neqn naux : nat) : pstate := mkP (create neqn 0) (if (naux =? 0)%nat then None else Some (create naux 0)) None None.
(** petclaw/state.py:49-112, the getters: getArray().reshape(shape, order='F'), a view *)
Definition view (a : vec) : nd := mkNd (v_dof a :: cells) (v_vals a).
Definition p_read (v : field) (s : pstate) : obs :=
  match p_get v s with
  | Some a => OArr (view a)
  | None => match v with FAux => ONone | _ => OZero end
  end.
(** setArray(val.reshape([-1], order='F')): the number of values must be that of the vector *)
Definition set_array (a : vec) (l : list Q) : vec * obs :=
  if (length l =? length (v_vals a))%nat then (mkV (v_dof a) (v_width a) l, ODone) else (a, ORaised ValueErr).
(** the setters petclaw/state.py:57-59 (q), 71-75 (p: init_p_da does not exist), 88-92 (the setter of F is called fset, so F has none) and
    106-113 (aux) *)
Definition p_assign (v : field) (a : nd) (s : pstate) : pstate * obs :=
  match v with
  | FQ => let (b, o) := set_array (p_q s) (data a) in (p_set FQ b s, o)
  | FAux =>
      match p_aux s with
      | Some b => let (b', o) := set_array b (data a) in (p_set FAux b' s, o)
      | None => match shape a with
                | [] => (s, ORaised IndexErr)
                | O :: _ => (s, ORaised PetscErr)
                | c :: _ => let (b', o) := set_array (create c 0) (data a) in (p_set FAux b' s, o)
                end
      end
  | FP =>
      match shape a, p_p s with
      | [], _ => (s, ORaised IndexErr)
      | _, None => (s, ORaised AttributeErr)
      | _, Some b => let (b', o) := set_array b (data a) in (p_set FP b' s, o)
      end
  | FF => (s, ORaised AttributeErr)
  end.
(** writing through the view *)
Definition p_write (v : field) (f : nd -> nd * obs) (s : pstate) : pstate * obs :=
  match p_get v s with
  | None => (s, ORaised TypeErr)
  | Some b => let (a, o) := f (view b) in (p_set v (mkV (v_dof b) (v_width b) (data a)) s, o)
  end.
(** petclaw/state.py:8-47 *)
Definition p_num (n : number) (s : pstate) : obs :=
  match n with
  | NEqn => ONum (v_dof (p_q s))
  | NAux => match p_aux s with None => ONum 0 | Some a => ONum (v_dof a) end
  | NP => match p_p s with None => ORaised PlainErr | Some a => ONum (v_dof a) end
  | NF => match p_F s with None => ORaised PlainErr | Some a => ONum (v_dof a) end
  end.
(** petclaw/state.py:27-33 and 41-47, the setters of mp and mF *)
Definition p_set_num (v : field) (k : nat) (s : pstate) : pstate * obs :=
  match p_get v s with
  | Some _ => (s, ORaised PlainErr)
  | None => if (k =? 0)%nat then (s, ORaised PetscErr) else (p_set v (create k 0) s, ODone)
  end.
(** petclaw/state.py:243-262: new DAs and vectors with the old values *)
Definition rewidth (w : nat) (a : vec) : vec := mkV (v_dof a) w (v_vals a).
Definition p_set_ghost (w : nat) (s : pstate) : pstate := mkP (rewidth w (p_q s)) (option_map (rewidth w) (p_aux s)) (p_p s) (p_F s).
(** petclaw/state.py:223-241: the local vector has the width of the DA; reshape refuses another number of values *)
Definition p_interior (a : vec) (ng : nat) : obs :=
  if (size (map (fun n => n + 2 * v_width a) cells) =? size (map (fun n => n + 2 * ng) cells))%nat then OArr (view a) else ORaised ValueErr.
(** One operation; sum_F petclaw/state.py:264-265 *)
Definition p_step (s : pstate) (o : op) : pstate * obs :=
  match o with
  | Read v => (s, p_read v s)
  | Assign v a => p_assign v a s
  | Fill v a => p_write v (fun b => fill b a) s
  | Poke v ix x => p_write v (fun b => poke b ix x) s
  | Num n => (s, p_num n s)
  | SetNum NP k => p_set_num FP k s
  | SetNum NF k => p_set_num FF k s
  | SetNum _ _ => (s, ORaised AttributeErr)
  | SumF i =>
      (s, match p_F s with
          | None => ORaised AttributeErr
          | Some a => if (i <? v_dof a)%nat then OSum (sum_abs (v_dof a) i (v_vals a)) else ORaised PetscErr
          end)
  | SetGhost ng => (p_set_ghost ng s, ODone)
  | Interior v ng =>
      (s, match v with
          | FQ => p_interior (p_q s) ng
          | FAux => match p_aux s with None => ORaised AttributeErr | Some a => p_interior a ng end
          | _ => ORaised AttributeErr
          end)
  | DeepCopy =>                                    (* petclaw/state.py:311-318, after state.py:310-324 *)
      (p_set_ghost (v_width (p_q s)) (mkP (p_q s) (p_aux s) None None), ODone)
  end.

(** Programs: what they see *)
Fixpoint s_run (s : sstate) (l : list op) : sstate * list obs :=
  match l with [] => (s, []) | o :: r => let (s1, x) := s_step s o in let (s2, xs) := s_run s1 r in (s2, x :: xs) end.
Fixpoint p_run (s : pstate) (l : list op) : pstate * list obs :=
  match l with [] => (s, []) | o :: r => let (s1, x) := p_step s o in let (s2, xs) := p_run s1 r in (s2, x :: xs) end.
End State.

(** ** controller.py:398-409 write_F after compute_F: the numbers written to the file, in the serial program and by process 0 of a
    parallel one, whose sum_F adds the parts of all processes ([states]); [None]: an exception *)
Fixpoint all_sums (l : list obs) : option (list Q) :=
  match l with
  | [] => Some []
  | OSum x :: r => option_map (cons x) (all_sums r)
  | _ :: _ => None
  end.
Definition write_F (cells : list nat) (blank : nat -> list Q) (s : sstate) : option (list Q) :=
  match s_num NF s with
  | ONum k => all_sums (map (fun i => snd (s_step cells blank s (SumF i))) (seq 0 k))
  | _ => None
  end.
(** the reduction over the processes, each with its own cells *)
Definition reduce (l : list obs) : obs := match all_sums l with Some xs => OSum (qsum xs) | None => ORaised PetscErr end.
Definition write_F_parallel (states : list (list nat * pstate)) : option (list Q) :=
  match states with
  | [] => None
  | (c0, s0) :: _ =>
      match p_num NF s0 with
      | ONum k => all_sums (map (fun i => reduce (map (fun cs => snd (p_step (fst cs) (snd cs) (SumF i))) states)) (seq 0 k))
      | _ => None
      end
  end.
