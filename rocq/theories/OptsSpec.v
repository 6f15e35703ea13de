(** What calls of Solution.write and Solution.read should do, from the assignments of the program only. *)
From Verif Require Import Base FormatModel OptsModel.

Section Spec.
  Variable dicts0 : nat -> dict.
  (** The options that the program has put into a dictionary *)
  Definition asked (os : list op) (i : nat) : dict :=
    fold_left (fun d a => match a with Assign j k v => if Nat.eqb j i then put k v d else d | _ => d end) os (dicts0 i).
End Spec.
(** The dictionary is given to no call of read *)
Definition not_read (i : nat) (os : list op) : Prop := forall pet given header, ~ In (Read pet i given header) os.
(** The same key means the same *)
Definition same_options (d e : dict) : Prop := forall k, get k d = get k e.
