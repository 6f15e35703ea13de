(** What the user has asked for, in terms of the assignments made so far only. *)
From Verif Require Import Base SettingsModel.

Section Spec.
  Variable solvers : nat -> built.
  Variable names : nat -> list Z.
  Variable opts0 : nat -> options.
  Variable states0 : nat -> pstate.

  (** The current values of the attributes *)
  Definition current_options (os : list op) (s : nat) : options :=
    fold_left (fun o a => match a with SetOptions t o' => if Nat.eqb t s then o' else o | _ => o end) os (opts0 s).
  Definition current_state (os : list op) (i : nat) : pstate :=
    fold_left (fun st a => match a with SetState j st' => if Nat.eqb j i then st' else st | _ => st end) os (states0 i).

  (** One limiter for each wave; a single one is used for all *)
  Definition each_wave (o : options) : list Z :=
    match limiters o with
    | [x] => repeat x (num_waves o)
    | l => l
    end.
  (** The call that these options and this state ask for *)
  Definition asked (b : built) (o : options) (st : pstate) : call :=
    match lang b with
    | Fortran =>
        mkCall (if Nat.eqb (dims b) 1 then false else dimensional_split o) (order o)
          (if Nat.eqb (dims b) 1 then 0%Z else if dimensional_split o then (-1)%Z else transverse_waves o)
          (index_capa st + 1) (num_aux st) (each_wave o) (fwave o) (map (problem_data st) (names (module b)))
    | Python =>
        mkCall false (order o) 0 (index_capa st + 1) (num_aux st) (each_wave o) (fwave o)
          (map (problem_data st) (names (module b)))
    end.

  (** The program up to the first step of solver s, and the solution of that step *)
  Fixpoint first_step (s : nat) (before os : list op) : option (list op * nat) :=
    match os with
    | [] => None
    | a :: r =>
        match a with
        | Step t i => if Nat.eqb t s then Some (before, i) else first_step s (before ++ [a]) r
        | _ => first_step s (before ++ [a]) r
        end
    end.
  (** The state with which a Riemann solver module was last set up: that of the most recent first step of a Fortran
      solver with this module *)
  Fixpoint last_setup (mo : nat) (before os : list op) (found : option pstate) : option pstate :=
    match os with
    | [] => found
    | a :: r =>
        last_setup mo (before ++ [a]) r
          (match a with
           | Step t i =>
               match first_step t [] before, lang (solvers t) with
               | None, Fortran => if Nat.eqb (module (solvers t)) mo then Some (current_state before i) else found
               | _, _ => found
               end
           | _ => found
           end)
    end.
End Spec.
