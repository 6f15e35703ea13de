(** Attributes of a solution as its documentation describes them. *)
From Verif Require Import Base SolnModel.

(** The attributes that are passed on to all states when they are assigned *)
Definition for_all_states (k : key) : Prop := k = KT \/ k = KMp \/ k = KMF.
(** Two states that differ at most in one attribute (mp belongs to p, mF to F) *)
Definition same_but (k : key) (a b : state) : Prop :=
  (k <> KT -> t a = t b) /\ (k <> KQ -> q a = q b) /\ (k <> KAux -> aux a = aux b) /\
  (k <> KP -> k <> KMp -> p a = p b) /\ (k <> KF -> k <> KMF -> F a = F b) /\ (k <> KData -> data a = data b).
(** Assignments through the solution are of t, mp and mF only *)
Definition careful (o : op) : Prop := match o with Set_ k _ => for_all_states k | _ => True end.
