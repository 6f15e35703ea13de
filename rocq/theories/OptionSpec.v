(** What assignments to attributes must do. *)
From Coq Require Import String.
From Verif Require Import Base OptionModel.

(** The last value assigned to [k], or the old one. *)
Fixpoint last_value {V} (k : string) (l : list (string * V)) (old : option V) : option V :=
  match l with
  | [] => old
  | (k', v) :: r => last_value k r (if String.eqb k k' then Some v else old)
  end.
