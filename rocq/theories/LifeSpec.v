(** Programs that use SharpClaw solvers one at a time. *)
From Verif Require Import Base LifeModel.

(** What the program knows: the options of each solver it still refers to, and which solver is in use (has been
    evolved and not yet dropped) *)
Record plan := mkPlan { known : list (option (Z * Z * Z)); in_use : option nat }.
Definition set_known (s : nat) (v : option (Z * Z * Z)) (p : plan) : list (option (Z * Z * Z)) :=
  firstn s (known p) ++ v :: skipn (S s) (known p).

(** lim_type and char_decomp as documented, except lim_type 3 *)
Definition documented (lim_type char_decomp : Z) : Prop :=
  (lim_type = 1 /\ 0 <= char_decomp <= 2)%Z \/ (lim_type = 2 /\ 0 <= char_decomp <= 3)%Z.

(** Options are changed before the first evolution only; a solver is evolved only while no other one is in use. *)
Inductive one_at_a_time : plan -> list op -> list (nat * Z * Z) -> Prop :=
| O_nil p : one_at_a_time p [] []
| O_create p l c n os log :
    one_at_a_time (mkPlan (known p ++ [Some (l, c, n)]) (in_use p)) os log ->
    one_at_a_time p (Create l c n :: os) log
| O_options p s l c l' c' n os log :
    nth_error (known p) s = Some (Some (l, c, n)) -> in_use p <> Some s ->
    one_at_a_time (mkPlan (set_known s (Some (l', c', n)) p) (in_use p)) os log ->
    one_at_a_time p (SetOptions s l' c' :: os) log
| O_evolve p s l c n os log :
    nth_error (known p) s = Some (Some (l, c, n)) -> documented l c ->
    (in_use p = None \/ in_use p = Some s) ->
    one_at_a_time (mkPlan (known p) (Some s)) os log ->
    one_at_a_time p (Evolve s :: os) ((s, l, c) :: log)      (* an evaluation with the options of the solver *)
| O_delete p s l c n os log :
    nth_error (known p) s = Some (Some (l, c, n)) -> in_use p <> Some s ->
    one_at_a_time (mkPlan (set_known s None p) (in_use p)) os log ->
    one_at_a_time p (Delete s :: os) log
| O_delete_used p s l c n os log :
    nth_error (known p) s = Some (Some (l, c, n)) -> in_use p = Some s ->
    one_at_a_time (mkPlan (set_known s None p) None) os log ->
    one_at_a_time p (Delete s :: os) log.
Definition nothing : plan := mkPlan [] None.
