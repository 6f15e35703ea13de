(** Lemmas about the regression helpers. *)
From Coq Require Import Permutation Lqa.
From Verif Require Import Base RegressModel RegressSpec LimiterProofs2.

Lemma sumsq_minus a : forall b, sumsq (minus a b) = sqdist a b.
Proof. induction a as [|x a IH]; intros [|y b]; cbn; try reflexivity. unfold minus in IH. rewrite IH. reflexivity. Qed.

Lemma sumsq_nonneg l : 0 <= sumsq l.
Proof. induction l as [|x l IH]; cbn; [lra|]. pose proof (sq_nonneg x). fold (sumsq l). lra. Qed.

Lemma sumsq_zero l : sumsq l == 0 <-> Forall (fun x => x == 0) l.
Proof.
  induction l as [|x l IH]; cbn [sumsq fold_right].
  - split; [constructor|reflexivity].
  - fold (sumsq l). pose proof (sq_nonneg x). pose proof (sumsq_nonneg l). split.
    + intros E. assert (x * x == 0) by lra. assert (sumsq l == 0) by lra. constructor; [|apply IH; assumption].
      apply Qmult_integral in H1. destruct H1; assumption.
    + intros F. apply Forall_cons_iff in F. destruct F as [Hx F]. apply IH in F. rewrite F, Hx. ring.
Qed.

Lemma sqdist_nonneg a b : 0 <= sqdist a b.
Proof. rewrite <- sumsq_minus. apply sumsq_nonneg. Qed.

Lemma sqdist_zero a : forall b, Forall2 Qeq a b -> sqdist a b == 0.
Proof.
  induction a as [|x a IH]; intros b F; inversion F; subst; cbn [sqdist]; [reflexivity|].
  rewrite IH by assumption. rewrite H1. ring.
Qed.

Lemma below_spec d s tol : 0 <= d -> 0 <= s -> scaled_sqrt_lt d s tol = true <-> root_below d s tol.
Proof.
  intros Hd Hs. unfold scaled_sqrt_lt. destruct (qleb 0 d) eqn:E; [|apply qleb_gt in E; lra].
  rewrite andb_true_iff, !qltb_lt. remember (d * d * s) as X eqn:EX.
  assert (HX : 0 <= X). { rewrite EX. pose proof (sq_nonneg d). nra. }
  unfold root_below. rewrite <- EX. clear EX. split.
  - intros [Ht HXt]. assert (HI : 0 < / (2 * tol)) by (apply Qinv_lt_0_compat; lra).
    remember ((tol * tol + X) * / (2 * tol)) as r eqn:Er.
    assert (Hr : 2 * tol * r == tol * tol + X). { rewrite Er. field. lra. }
    clear Er. assert (Hr0 : 0 <= r) by nra. exists r. split; [exact Hr0|]. split; [nra|].
    assert (K : 4 * (tol * tol) * X <= (2 * tol * r) * (2 * tol * r)).
    { rewrite Hr. pose proof (sq_nonneg (tol * tol - X)). nra. }
    assert (K2 : 0 < tol * tol) by nra. nra.
  - intros (r & H0 & H1 & H2). split; [lra|nra].
Qed.

Lemma eq_list_eq {A} (eqb : A -> A -> bool) : (forall x y, eqb x y = true <-> x = y) ->
  forall a b, eq_list eqb a b = true <-> a = b.
Proof.
  intros H. induction a as [|x a IH]; intros [|y b]; cbn [eq_list]; try (split; congruence).
  rewrite andb_true_iff, H, IH. split; [intros [-> ->]; reflexivity|intros E; injection E; auto].
Qed.
Lemma eq_option_eq {A} (eqb : A -> A -> bool) : (forall x y, eqb x y = true <-> x = y) ->
  forall a b, eq_option eqb a b = true <-> a = b.
Proof.
  intros H [x|] [y|]; cbn [eq_option]; try (split; congruence). rewrite H. split; congruence.
Qed.

Lemma same_dim_spec a b : same_dim a b = true <->
  (rd_cells a = rd_cells b /\ rd_lower a == rd_lower b /\ rd_delta a == rd_delta b /\ rd_units a = rd_units b /\
   rd_on_lower a = rd_on_lower b /\ rd_on_upper a = rd_on_upper b).
Proof.
  unfold same_dim. rewrite !andb_true_iff, Z.eqb_eq, !qeqb_eq, (eq_option_eq Z.eqb Z.eqb_eq), !(eq_option_eq Bool.eqb eqb_true_iff). tauto.
Qed.
Lemma same_dims_spec a : forall b, length a = length b -> same_dims a b = true <->
  Forall2 (fun x y => rd_cells x = rd_cells y /\ rd_lower x == rd_lower y /\ rd_delta x == rd_delta y /\ rd_units x = rd_units y /\
                      rd_on_lower x = rd_on_lower y /\ rd_on_upper x = rd_on_upper y) a b.
Proof.
  induction a as [|x a IH]; intros [|y b] HL; try discriminate HL; cbn [same_dims].
  - split; [constructor|reflexivity].
  - rewrite andb_true_iff, same_dim_spec, IH by (injection HL; auto). split.
    + intros [H1 H2]. constructor; assumption.
    + intros F. inversion F; subst. split; assumption.
Qed.

Lemma q_below a b tol : scaled_sqrt_lt 1 (sumsq (minus a b)) tol = true <-> root_below 1 (sqdist a b) tol.
Proof. rewrite sumsq_minus. apply below_spec; [lra|apply sqdist_nonneg]. Qed.

Lemma state_matches_spec s r : sane s -> sane r -> state_matches s r = true <-> agree s r.
Proof.
  intros [S1 S2] [R1 R2]. unfold state_matches, agree.
  rewrite !andb_true_iff, (eq_list_eq Z.eqb Z.eqb_eq), Nat.eqb_eq, q_below, qeqb_eq, !Z.eqb_eq. unfold q_tol.
  split.
  - intros [[[[[[[[[A B] C] D] E] F] G] H] I] J].
    assert (HL : length (r_dims s) = length (r_dims r)) by (rewrite A in S1; congruence).
    apply (same_dims_spec _ _ HL) in J. repeat split; try assumption.
    destruct (r_aux r) as [[rsh ra]|], (r_aux s) as [[ssh sa]|].
    + rewrite !andb_true_iff, (eq_list_eq Z.eqb Z.eqb_eq), Nat.eqb_eq, q_below in D. unfold aux_tol in D. tauto.
    + discriminate D.
    + assert (r_num_aux r = 0%Z) by (apply R2; reflexivity). assert (X : Some (ssh, sa) = None) by (apply S2; congruence). discriminate X.
    + exact Logic.I.
  - intros (A & B & C & D & E & F & G & H & I & J).
    assert (HL : length (r_dims s) = length (r_dims r)) by (rewrite A in S1; congruence).
    repeat split; try assumption; [|apply (same_dims_spec _ _ HL); exact J].
    destruct (r_aux r) as [[rsh ra]|], (r_aux s) as [[ssh sa]|]; try contradiction; [|reflexivity].
    rewrite !andb_true_iff, (eq_list_eq Z.eqb Z.eqb_eq), Nat.eqb_eq, q_below. unfold aux_tol. tauto.
Qed.

Lemma find_ref_in k refs r : find_ref k refs = Some r -> In r refs.
Proof.
  induction refs as [|x refs IH]; cbn [find_ref]; [discriminate|].
  destruct (r_index x =? k)%Z; [intros E; injection E as ->; left; reflexivity|].
  destruct refs as [|y refs]; [intros E; injection E as ->; left; reflexivity|]. intros E. right. apply IH, E.
Qed.
Lemma find_ref_hit k refs r : NoDup (map r_index refs) -> In r refs -> r_index r = k -> find_ref k refs = Some r.
Proof.
  induction refs as [|x refs IH]; intros ND Hr E; [contradiction|]. cbn [find_ref map] in *. inversion ND as [|? ? N1 N2]; subst.
  destruct Hr as [->|Hr]; [rewrite Z.eqb_refl; reflexivity|].
  destruct (Z.eqb_spec (r_index x) (r_index r)) as [E|_].
  - exfalso. apply N1. rewrite E. apply in_map, Hr.
  - destruct refs as [|y refs]; [contradiction|]. apply IH; auto.
Qed.

(** When every element of [a] has a related element of [b] with the same key, keys of [a] are distinct and the
    lengths agree, then [b] is a reordering of what [a] is related to. *)
Lemma matching (R : rstate -> rstate -> Prop) : (forall x y, R x y -> r_index x = r_index y) ->
  forall a b, length a = length b -> NoDup (map r_index a) -> (forall x, In x a -> exists y, In y b /\ R x y) ->
  exists b', Permutation b b' /\ Forall2 R a b'.
Proof.
  intros HR. induction a as [|x a IH]; intros b HL ND HM.
  - destruct b; [|discriminate HL]. exists []. split; constructor.
  - inversion ND as [|? ? N1 N2]; subst. destruct (HM x (or_introl eq_refl)) as (y & Hy & Rxy).
    apply in_split in Hy. destruct Hy as (b1 & b2 & ->).
    assert (HL' : length a = length (b1 ++ b2)). { rewrite app_length in *. cbn [length] in HL. lia. }
    destruct (IH (b1 ++ b2) HL' N2) as (b' & P & F).
    + intros z Hz. destruct (HM z (or_intror Hz)) as (w & Hw & Rzw). exists w. split; [|exact Rzw].
      apply in_app_or in Hw. apply in_or_app. destruct Hw as [Hw|[E|Hw]]; [left; exact Hw| |right; exact Hw].
      exfalso. apply N1. rewrite (HR x y Rxy), E, <- (HR z w Rzw). apply in_map, Hz.
    + exists (y :: b'). split; [|constructor; assumption].
      apply Permutation_sym, Permutation_cons_app, Permutation_sym, P.
Qed.

Lemma Forall2_in_left {A B} (R : A -> B -> Prop) a b x : Forall2 R a b -> In x a -> exists y, In y b /\ R x y.
Proof.
  intros F. induction F as [|u v a b H F IH]; intros Hx; [contradiction|]. destruct Hx as [E|Hx].
  - subst u. exists v. split; [left; reflexivity|exact H].
  - destruct (IH Hx) as (y & Hy & K). exists y. split; [right; exact Hy|exact K].
Qed.
Lemma Forall2_in_right {A B} (R : A -> B -> Prop) a b y : Forall2 R a b -> In y b -> exists x, In x a /\ R x y.
Proof.
  intros F. induction F as [|u v a b H F IH]; intros Hx; [contradiction|]. destruct Hx as [E|Hx].
  - subst v. exists u. split; [left; reflexivity|exact H].
  - destruct (IH Hx) as (x & Hy & K). exists x. split; [right; exact Hy|exact K].
Qed.
