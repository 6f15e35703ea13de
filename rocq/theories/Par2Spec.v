(** Specification for parallel runs in two and three dimensions (C147). *)
From Verif Require Import Base TimeModel BCModel BCSpec Classic1DModel SweepModel ParallelModel ParallelSpec.

(** All ways to choose one interval per dimension: the boxes of a grid of processes *)
Fixpoint combos {A} (css : list (list A)) : list (list A) :=
  match css with
  | [] => [[]]
  | cs :: css => flat_map (fun c => map (cons c) (combos css)) cs
  end.
(** Each dimension is cut into intervals of at least ng cells. *)
Definition mdecomposed (ng : nat) (Ds : list dimbc) (css : list (list (Z * Z))) : Prop :=
  Forall2 (fun D cs => decomposed ng (ncells D) cs) Ds css.

(** Equal components 0 .. n-1 in the cells of the grid *)
Definition same_mcells (n : nat) (Ds : list dimbc) (a b : arr Q) : Prop :=
  forall m ix, (0 <= m < Z.of_nat n)%Z -> in_domain Ds ix -> a m ix = b m ix.
Definition same_msolution {X} (S : msettings) (a b : sol (option (arr Q)) (arr Q * X)) : Prop :=
  match sq a, sq b with
  | Some q, Some q' => same_mcells (n_neq S) (n_bcs S) q q'
  | None, None => True
  | _, _ => False
  end /\
  same_mcells (n_naux S) (n_bcs S) (fst (sx a)) (fst (sx b)) /\ snd (sx a) = snd (sx b) /\ st a = st b.
(** A callback that acts on the cells only. *)
Definition respects_mcells {X} (S : msettings) (f : Q -> arr Q -> arr Q * X -> arr Q * (arr Q * X)) : Prop :=
  forall t q q' x x', same_mcells (n_neq S) (n_bcs S) q q' ->
  same_mcells (n_naux S) (n_bcs S) (fst x) (fst x') -> snd x = snd x' ->
  let r := f t q x in let r' := f t q' x' in
  same_mcells (n_neq S) (n_bcs S) (fst r) (fst r') /\
  same_mcells (n_naux S) (n_bcs S) (fst (snd r)) (fst (snd r')) /\ snd (snd r) = snd (snd r').
Definition same_mevent {X} (S : msettings) (a b : event (option (arr Q)) (arr Q * X)) : Prop :=
  ev_accepted a = ev_accepted b /\ ev_dt a = ev_dt b /\ ev_cfl a == ev_cfl b /\
  same_msolution S (ev_before a) (ev_before b) /\ same_msolution S (ev_after a) (ev_after b).
