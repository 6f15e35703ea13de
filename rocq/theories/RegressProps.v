(** Properties C50, C79 and C80: the regression helpers. *)
From Coq Require Import Permutation Lqa.
From Verif Require Import Base RegressModel RegressSpec RegressProofs.

(** check_diff: with an absolute tolerance it returns nothing exactly when the norm of the difference (times the
    cell volume, if given) is below it; with a relative tolerance, and expected values that are not all zero,
    exactly when some r below the tolerance bounds the norm of the difference by r times that of the expected
    values.  Without a tolerance, or with arrays of different sizes, it raises. *)
Theorem C50_check_diff (expected test : list Q) (delta : option (list Q)) (abstol reltol : option Q) :
  let d := match delta with Some l => prod l | None => 1 end in
  0 < d ->
  (forall tol, length expected = length test -> abstol = Some tol ->
     check_diff expected test delta abstol reltol = Fine <-> root_below d (sqdist expected test) tol) /\
  (forall tol, length expected = length test -> abstol = None -> reltol = Some tol -> ~ Forall (fun x => x == 0) expected ->
     check_diff expected test delta abstol reltol = Fine <->
     exists r, 0 <= r /\ r < tol /\ sqdist expected test <= r * r * sumsq expected) /\
  (length expected <> length test \/ abstol = None /\ reltol = None <-> check_diff expected test delta abstol reltol = Raised).
Proof.
  cbv zeta. intros Hd. unfold check_diff. set (d := match delta with Some l => prod l | None => 1 end) in *.
  rewrite sumsq_minus. split; [|split].
  - intros tol HL ->. rewrite HL, Nat.eqb_refl. cbn [negb].
    rewrite <- below_spec by (lra || apply sqdist_nonneg).
    destruct (scaled_sqrt_lt d (sqdist expected test) tol); split; congruence.
  - intros tol HL -> -> HN. rewrite HL, Nat.eqb_refl. cbn [negb].
    assert (D0 : qeqb d 0 = false) by (apply qeqb_neq; lra). rewrite D0.
    assert (E0 : ~ sumsq expected == 0) by (rewrite sumsq_zero; exact HN).
    assert (E1 : qeqb (sumsq expected) 0 = false) by (apply qeqb_neq; exact E0). rewrite E1. cbn [negb andb].
    pose proof (sumsq_nonneg expected) as HP. assert (EP : 0 < sumsq expected) by lra.
    pose proof (sqdist_nonneg expected test) as HS.
    set (E := sumsq expected) in *. set (S := sqdist expected test) in *.
    assert (RN : 0 <= S / E) by (apply Qle_shift_div_l; [exact EP|lra]).
    assert (K : scaled_sqrt_lt 1 (S / E) tol = true <-> exists r, 0 <= r /\ r < tol /\ S <= r * r * E).
    { rewrite below_spec by (lra || exact RN). unfold root_below. assert (X : S == S / E * E) by (field; exact E0).
      split; intros (r & H0 & H1 & H2); exists r; (split; [exact H0|split; [exact H1|]]).
      - rewrite X. apply Qmult_le_compat_r; [lra|lra].
      - assert (S / E <= r * r); [|lra]. apply Qle_shift_div_r; [exact EP|exact H2]. }
    rewrite <- K. destruct (scaled_sqrt_lt 1 (S / E) tol); split; congruence.
  - destruct (Nat.eqb_spec (length expected) (length test)) as [HL|HL]; cbn [negb].
    + split.
      * intros [H|[-> ->]]; [contradiction|reflexivity].
      * destruct abstol as [tol|], reltol as [tol'|]; intros H; try (right; split; reflexivity);
          match type of H with (if ?c then _ else _) = _ => destruct c end; discriminate H.
    + split; [reflexivity|]. intros _. left. exact HL.
Qed.

Example C50_case :
  check_diff [1; 2] [1; 2 + (1 # 100)] None None (Some (1 # 10)) = Fine /\
  check_diff [1; 2] [1; 3] (Some [1 # 2]) (Some (1 # 2)) None <> Fine /\ check_diff [1; 2] [1; 3] (Some [1 # 2]) (Some (2 # 3)) None = Fine.
Proof. vm_compute. repeat split; congruence. Qed.

(** C80, equal values are not reported as different, is false with a relative tolerance when all are zero... *)
Theorem C80_equal_values_refuted :
  exists (x : list Q) (tol : Q), 0 < tol /\ check_diff x x None None (Some tol) <> Fine.
Proof. exists [0; 0], 1. split; [lra|]. vm_compute. congruence. Qed.

(** ... for every tolerance and every test value ... *)
Theorem C80_zero_reference_always_differs (expected test : list Q) (delta : option (list Q)) (tol : Q) :
  Forall (fun x => x == 0) expected -> check_diff expected test delta None (Some tol) <> Fine.
Proof.
  intros F. unfold check_diff. destruct (negb (length expected =? length test)%nat); [discriminate|].
  apply sumsq_zero in F. apply qeqb_eq in F. rewrite F. cbn [negb andb]. rewrite andb_false_r. discriminate.
Qed.

(** ... and true otherwise. *)
Theorem C80_equal_values_partial (expected test : list Q) (delta : option (list Q)) (abstol reltol : option Q) (tol : Q) :
  let d := match delta with Some l => prod l | None => 1 end in
  0 < d -> 0 < tol -> Forall2 Qeq expected test ->
  (abstol = Some tol \/ abstol = None /\ reltol = Some tol /\ ~ Forall (fun x => x == 0) expected) ->
  check_diff expected test delta abstol reltol = Fine.
Proof.
  cbv zeta. intros Hd Ht F H. assert (HL : length expected = length test) by (clear -F; induction F; cbn; congruence).
  destruct (C50_check_diff expected test delta abstol reltol Hd) as (A & B & _). pose proof (sqdist_zero expected test F) as Z0.
  destruct H as [->|(-> & -> & N)].
  - apply (A tol HL eq_refl). exists 0. split; [lra|]. split; [exact Ht|]. rewrite Z0. lra.
  - apply (B tol HL eq_refl eq_refl N). exists 0. split; [lra|]. split; [exact Ht|]. rewrite Z0. lra.
Qed.

(** check_solutions_are_same accepts exactly the pairs of solutions that are the same up to the order of their
    patches, when the patches of each have different indices... *)
Theorem C79_same_solutions_partial (a b : list rstate) :
  Forall sane a -> Forall sane b -> NoDup (map r_index a) -> NoDup (map r_index b) -> a <> [] ->
  (forall s, In s a -> forall s', In s' a -> r_t s == r_t s') ->
  solutions_are_same a b = true <-> same_solution a b.
Proof.
  intros SA SB NA NB NE TT. unfold solutions_are_same. rewrite !andb_true_iff, Nat.eqb_eq, forallb_forall.
  rewrite Forall_forall in SA, SB. split.
  - intros [[HL _] HM]. apply matching; [intros x y (_ & _ & _ & _ & _ & _ & _ & H & _); exact H|exact HL|exact NA|].
    intros x Hx. specialize (HM x Hx). destruct (find_ref (r_index x) b) as [y|] eqn:E; [|discriminate HM].
    apply find_ref_in in E. exists y. split; [exact E|]. apply state_matches_spec; auto.
  - intros (b' & P & F).
    assert (HL : length a = length b). { rewrite (Permutation_length P). clear -F. induction F; cbn; congruence. }
    assert (IN : forall x, In x a -> exists y, In y b /\ agree x y).
    { intros x Hx. destruct (Forall2_in_left _ _ _ x F Hx) as (y & Hy & H). exists y. split; [|exact H].
      eapply Permutation_in; [apply Permutation_sym, P|exact Hy]. }
    split; [split; [exact HL|]|].
    + destruct a as [|x a]; [contradiction|]. destruct b as [|y b]; [discriminate HL|]. apply qeqb_eq.
      assert (Hy : In y b') by (eapply Permutation_in; [exact P|left; reflexivity]).
      pose proof (Forall2_in_right _ _ _ y F Hy) as IN'.
      destruct IN' as (z & Hz & (_ & _ & _ & _ & HT & _)). rewrite (TT x (or_introl eq_refl) z Hz). exact HT.
    + intros x Hx. destruct (IN x Hx) as (y & Hy & HA).
      assert (EI : r_index y = r_index x). { destruct HA as (_ & _ & _ & _ & _ & _ & _ & H & _). symmetry. exact H. }
      rewrite (find_ref_hit (r_index x) b y NB Hy EI). apply state_matches_spec; auto.
Qed.

Definition demo_dim : rdim := mkRDim 2 0 1 None (Some true) (Some true).
Definition demo_patch (k : Z) (x : Q) : rstate := mkRState [1; 2]%Z [x; 1] None 0 1 0 k 1 [demo_dim].

Example C79_case : let a := [demo_patch 1 0; demo_patch 2 5] in let b := [demo_patch 2 5; demo_patch 1 0] in
  Forall sane a /\ Forall sane b /\ NoDup (map r_index a) /\ NoDup (map r_index b) /\ solutions_are_same a b = true /\
  solutions_are_same a [demo_patch 1 0; demo_patch 2 6] = false.
Proof.
  assert (S : forall k x, sane (demo_patch k x)) by (intros; split; [reflexivity|split; reflexivity]).
  cbv zeta. repeat split; try (repeat constructor; apply S); try (vm_compute; reflexivity);
  (constructor; [cbn; intros [H|[]]; discriminate H|constructor; [intros []|constructor]]).
Qed.

(** ... but not when patches share an index, as they do by default (every new patch has index 1): equal solutions
    are rejected, and different ones accepted. *)
Theorem C79_same_solutions_refuted :
  (exists a, Forall sane a /\ same_solution a a /\ solutions_are_same a a = false) /\
  (exists a b, Forall sane a /\ Forall sane b /\ ~ same_solution a b /\ solutions_are_same a b = true).
Proof.
  assert (S : forall k x, sane (demo_patch k x)) by (intros; split; [reflexivity|split; reflexivity]).
  assert (R0 : agree (demo_patch 1 0) (demo_patch 1 0)) by (apply state_matches_spec; [apply S|apply S|vm_compute; reflexivity]).
  assert (R5 : agree (demo_patch 1 5) (demo_patch 1 5)) by (apply state_matches_spec; [apply S|apply S|vm_compute; reflexivity]).
  split.
  - exists [demo_patch 1 0; demo_patch 1 5]. split; [constructor; [apply S|constructor; [apply S|constructor]]|]. split; [|vm_compute; reflexivity].
    exists [demo_patch 1 0; demo_patch 1 5]. split; [apply Permutation_refl|]. constructor; [exact R0|constructor; [exact R5|constructor]].
  - exists [demo_patch 1 0; demo_patch 1 0], [demo_patch 1 0; demo_patch 2 5].
    split; [constructor; [apply S|constructor; [apply S|constructor]]|]. split; [constructor; [apply S|constructor; [apply S|constructor]]|].
    split; [|vm_compute; reflexivity]. intros (b' & P & F).
    assert (H : In (demo_patch 2 5) b') by (eapply Permutation_in; [exact P|right; left; reflexivity]).
    inversion F as [|u v a1 b1 H1 F1]; subst. inversion F1 as [|u2 v2 a2 b2 H2 F2]; subst. inversion F2; subst.
    destruct H as [H|[H|[]]]; [rewrite H in H1|rewrite H in H2].
    + destruct H1 as (_ & _ & _ & _ & _ & _ & _ & X & _). discriminate X.
    + destruct H2 as (_ & _ & _ & _ & _ & _ & _ & X & _). discriminate X.
Qed.

Print Assumptions C50_check_diff.
Print Assumptions C80_equal_values_refuted.
Print Assumptions C80_zero_reference_always_differs.
Print Assumptions C80_equal_values_partial.
Print Assumptions C79_same_solutions_partial.
Print Assumptions C79_same_solutions_refuted.
