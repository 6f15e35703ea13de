(** Shared numeric helpers for the PyClaw model.

    Numbers: Python floats / Fortran doubles are modelled by exact rationals [Q]
    (simplification stated in DESIGN.md, section 1). *)
From Coq Require Export List ZArith QArith Qminmax Qabs Lia Lqa Bool Setoid.
Export ListNotations.
Open Scope Q_scope.

(** Python's [a < b], [a <= b], [a == b] on numbers, as booleans. *)
Definition qltb (a b : Q) : bool := negb (Qle_bool b a).
Definition qleb (a b : Q) : bool := Qle_bool a b.
Definition qeqb (a b : Q) : bool := Qeq_bool a b.

Lemma qltb_lt a b : qltb a b = true <-> a < b.
Proof.
  unfold qltb. destruct (Qle_bool b a) eqn:E; simpl; split; intro H.
  - discriminate.
  - apply Qle_bool_iff in E. lra.
  - apply Qnot_le_lt. intro K. apply Qle_bool_iff in K. congruence.
  - reflexivity.
Qed.

Lemma qltb_ge a b : qltb a b = false <-> b <= a.
Proof.
  unfold qltb. destruct (Qle_bool b a) eqn:E; simpl; split; intro H.
  - apply Qle_bool_iff. assumption.
  - reflexivity.
  - discriminate.
  - apply Qle_bool_iff in H. congruence.
Qed.

Lemma qleb_le a b : qleb a b = true <-> a <= b.
Proof. apply Qle_bool_iff. Qed.

Lemma qleb_gt a b : qleb a b = false <-> b < a.
Proof.
  unfold qleb. split; intro H.
  - apply Qnot_le_lt. intro K. apply Qle_bool_iff in K. congruence.
  - destruct (Qle_bool a b) eqn:E; [|reflexivity].
    apply Qle_bool_iff in E. lra.
Qed.

Lemma qeqb_eq a b : qeqb a b = true <-> a == b.
Proof. apply Qeq_bool_iff. Qed.

Lemma qeqb_neq a b : qeqb a b = false <-> ~ a == b.
Proof.
  unfold qeqb. split; intro H.
  - intro K. apply Qeq_bool_iff in K. congruence.
  - destruct (Qeq_bool a b) eqn:E; [|reflexivity].
    apply Qeq_bool_iff in E. contradiction.
Qed.

(** Case analysis on one boolean comparison, with the fact as hypothesis. *)
Ltac qcase_lt a b H :=
  let E := fresh "E" in
  destruct (qltb a b) eqn:E;
  [ assert (H : a < b) by (apply qltb_lt; exact E)
  | assert (H : b <= a) by (apply qltb_ge; exact E) ]; clear E.
Ltac qcase_le a b H :=
  let E := fresh "E" in
  destruct (qleb a b) eqn:E;
  [ assert (H : a <= b) by (apply qleb_le; exact E)
  | assert (H : b < a) by (apply qleb_gt; exact E) ]; clear E.
Ltac qcase_eq a b H :=
  let E := fresh "E" in
  destruct (qeqb a b) eqn:E;
  [ assert (H : a == b) by (apply qeqb_eq; exact E)
  | assert (H : ~ a == b) by (apply qeqb_neq; exact E) ]; clear E.

(** Turns boolean comparison hypotheses into propositions. *)
Ltac qprop :=
  repeat match goal with
  | H : qltb _ _ = true |- _ => apply qltb_lt in H
  | H : qltb _ _ = false |- _ => apply qltb_ge in H
  | H : qleb _ _ = true |- _ => apply qleb_le in H
  | H : qleb _ _ = false |- _ => apply qleb_gt in H
  | H : qeqb _ _ = true |- _ => apply qeqb_eq in H
  | H : qeqb _ _ = false |- _ => apply qeqb_neq in H
  | H : (_ && _)%bool = true |- _ => apply andb_true_iff in H; destruct H
  | H : (_ || _)%bool = false |- _ => apply orb_false_iff in H; destruct H
  end.

(** Python [min(a,b)] and [max(a,b)] (builtins): [min] returns the first argument
    unless the second is strictly smaller; likewise [max]. *)
Definition pymin (a b : Q) : Q := if qltb b a then b else a.
Definition pymax (a b : Q) : Q := if qltb a b then b else a.

Lemma pymin_spec a b : pymin a b <= a /\ pymin a b <= b /\ (pymin a b = a \/ pymin a b = b).
Proof. unfold pymin. qcase_lt b a H; repeat split; try lra; auto. Qed.
Lemma pymax_spec a b : a <= pymax a b /\ b <= pymax a b /\ (pymax a b = a \/ pymax a b = b).
Proof. unfold pymax. qcase_lt a b H; repeat split; try lra; auto. Qed.

(** Python [int(x)] on a float: truncation toward zero. *)
Definition qtrunc (x : Q) : Z := Z.quot (Qnum x) (Zpos (Qden x)).
(** Python [x // 1] / [np.floor]: floor. *)
Definition qfloor (x : Q) : Z := Z.div (Qnum x) (Zpos (Qden x)).

Lemma qfloor_le x : inject_Z (qfloor x) <= x.
Proof.
  unfold qfloor, Qle, inject_Z; simpl. rewrite Z.mul_1_r.
  rewrite Z.mul_comm. apply Z.mul_div_le. lia.
Qed.
Lemma qfloor_lt x : x < inject_Z (qfloor x) + 1.
Proof.
  unfold qfloor, Qlt, inject_Z, Qplus; simpl.
  pose proof (Z.mul_succ_div_gt (Qnum x) (Zpos (Qden x)) ltac:(lia)). nia.
Qed.
Lemma qtrunc_floor x : 0 <= x -> qtrunc x = qfloor x.
Proof.
  unfold qtrunc, qfloor, Qle; simpl; intros H.
  apply Z.quot_div_nonneg; lia.
Qed.

Lemma Qdiv_pos a b : 0 < a -> 0 < b -> 0 < a / b.
Proof. intros. apply Qlt_shift_div_l; lra. Qed.
Lemma Qmul_pos a b : 0 < a -> 0 < b -> 0 < a * b.
Proof. intros Ha Hb. apply Qmult_lt_0_compat; assumption. Qed.
Lemma Qmul_nonneg a b : 0 <= a -> 0 <= b -> 0 <= a * b.
Proof. apply Qmult_le_0_compat. Qed.

Lemma inject_Z_lt a b : (a < b)%Z -> inject_Z a < inject_Z b.
Proof. rewrite <- Zlt_Qlt. auto. Qed.
Lemma inject_Z_le a b : (a <= b)%Z -> inject_Z a <= inject_Z b.
Proof. rewrite <- Zle_Qle. auto. Qed.

(** Keep [simpl]/[cbn] from opening rational arithmetic. *)
#[global] Arguments Qred : simpl never.
#[global] Arguments Qplus : simpl never.
#[global] Arguments Qminus : simpl never.
#[global] Arguments Qmult : simpl never.
#[global] Arguments Qdiv : simpl never.
#[global] Arguments Qopp : simpl never.
#[global] Arguments Qinv : simpl never.
#[global] Arguments Qabs : simpl never.
#[global] Arguments Qle_bool : simpl never.
#[global] Arguments qltb : simpl never.
#[global] Arguments qleb : simpl never.
#[global] Arguments qeqb : simpl never.
#[global] Arguments pymin : simpl never.
#[global] Arguments pymax : simpl never.
