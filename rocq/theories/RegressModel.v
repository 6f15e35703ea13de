(** Helpers of the regression tests: src/pyclaw/util.py (check_diff, check_solutions_are_same).

    Simplifications: numbers are exact rationals (no infinities or NaNs among the data); arrays are flattened,
    with their shapes beside them where shapes matter, and arrays of different shapes raise (numpy's
    broadcasting is left out).  Square roots never appear as numbers: norms are kept as scale and sum of
    squares, and a comparison with a norm is made on squares with the signs taken into account. *)
From Verif Require Import Base.

Definition sumsq (l : list Q) : Q := fold_right (fun x s => x * x + s) 0 l.
Definition prod (l : list Q) : Q := fold_right Qmult 1 l.                             (* np.prod *)
Definition minus (a b : list Q) : list Q := map (fun xy => fst xy - snd xy) (combine a b).

(** d * sqrt(s) < tol *)
Definition scaled_sqrt_lt (d s tol : Q) : bool :=
  if qleb 0 d then (qltb 0 tol && qltb (d * d * s) (tol * tol))%bool
  else (qltb 0 tol || qltb (tol * tol) (d * d * s))%bool.

(** Norms are reported as a scale and a sum of squares. *)
Inductive outcome :=
  | Fine                                                       (* return None *)
  | Reported (d expected test err : Q) (relative : bool) (tol : Q)
  | Raised.

(** util.py:262-284 check_diff; keyword arguments are options *)
Definition check_diff (expected test : list Q) (delta : option (list Q)) (abstol reltol : option Q) : outcome :=
  let d := match delta with Some l => prod l | None => 1 end in
  if negb (length expected =? length test)%nat then Raised
  else
    let err := sumsq (minus expected test) in
    match abstol, reltol with
    | Some tol, _ =>
        if scaled_sqrt_lt d err tol then Fine else Reported d (sumsq expected) (sumsq test) err false tol
    | None, Some tol =>
        (* err_norm/expected_norm: inf or nan when expected_norm is zero, and then the comparison is false *)
        if (negb (qeqb d 0) && negb (qeqb (sumsq expected) 0) && scaled_sqrt_lt 1 (err / sumsq expected) tol)%bool then Fine
        else Reported d (sumsq expected) (sumsq test) err true tol
    | None, None => Raised
    end.

(** The attributes check_solutions_are_same looks at. *)
Record rdim := mkRDim { rd_cells : Z; rd_lower : Q; rd_delta : Q; rd_units : option Z; rd_on_lower : option bool; rd_on_upper : option bool }.
Record rstate := mkRState {
  r_shape : list Z; r_q : list Q; r_aux : option (list Z * list Q); r_t : Q; r_num_eqn : Z; r_num_aux : Z;
  r_index : Z; r_level : Z; r_dims : list rdim }.

Definition eq_option {A} (eqb : A -> A -> bool) (a b : option A) : bool :=
  match a, b with Some x, Some y => eqb x y | None, None => true | _, _ => false end.
Fixpoint eq_list {A} (eqb : A -> A -> bool) (a b : list A) : bool :=
  match a, b with x :: a, y :: b => (eqb x y && eq_list eqb a b)%bool | [], [] => true | _, _ => false end.

(** util.py:311-320: the dimensions, with zip stopping at the shorter list *)
Definition same_dim (a b : rdim) : bool :=
  ((rd_cells a =? rd_cells b)%Z && qeqb (rd_lower a) (rd_lower b) && qeqb (rd_delta a) (rd_delta b) &&
   eq_option Z.eqb (rd_units a) (rd_units b) && eq_option Bool.eqb (rd_on_lower a) (rd_on_lower b) &&
   eq_option Bool.eqb (rd_on_upper a) (rd_on_upper b))%bool.
Fixpoint same_dims (a b : list rdim) : bool :=
  match a, b with x :: a, y :: b => (same_dim x y && same_dims a b)%bool | _, _ => true end.

Definition q_tol : Q := 1 # 1000000.                                                  (* 1.e-6 *)
Definition aux_tol : Q := 1 # 10000000000000000.                                      (* 1.e-16 *)

(** util.py:294-320 the body of the outer loop: true when no assertion fails and nothing is raised; states have
    no attributes patch_index and level of their own (299-302) *)
Definition state_matches (s r : rstate) : bool :=
  (eq_list Z.eqb (r_shape s) (r_shape r) && (length (r_q s) =? length (r_q r))%nat &&
   scaled_sqrt_lt 1 (sumsq (minus (r_q s) (r_q r))) q_tol &&
   match r_aux r with
   | None => true
   | Some (rsh, ra) => match r_aux s with
                       | None => false                                                 (* None - array: TypeError *)
                       | Some (ssh, sa) => eq_list Z.eqb ssh rsh && (length sa =? length ra)%nat &&
                                           scaled_sqrt_lt 1 (sumsq (minus sa ra)) aux_tol
                       end
   end &&
   qeqb (r_t s) (r_t r) && (r_num_eqn s =? r_num_eqn r)%Z && (r_num_aux s =? r_num_aux r)%Z &&
   (r_index s =? r_index r)%Z && (r_level s =? r_level r)%Z && same_dims (r_dims s) (r_dims r))%bool.

(** util.py:290-292: the inner loop, leaving ref_state at the first state with the same index, or at the last *)
Fixpoint find_ref (k : Z) (refs : list rstate) : option rstate :=
  match refs with
  | [] => None
  | r :: rest => if (r_index r =? k)%Z then Some r
                 else match rest with [] => Some r | _ => find_ref k rest end
  end.

(** util.py:286-320 check_solutions_are_same: true when it returns; Solution.t is the time of the first state
    (solution.py:68-76, 224-231), so that comparing the times of empty solutions raises *)
Definition solutions_are_same (a b : list rstate) : bool :=
  ((length a =? length b)%nat &&
   match a, b with
   | x :: _, y :: _ => qeqb (r_t x) (r_t y)
   | _, _ => false
   end &&
   forallb (fun s => match find_ref (r_index s) b with Some r => state_matches s r | None => false end) a)%bool.
