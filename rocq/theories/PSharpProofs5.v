(** Proofs about parallel SharpClaw runs, part 5: the points at which a step evaluates dq. *)
From Verif Require Import Base TimeModel SharpModel RunModel PSharpModel.

Section Evaluations.
Context {Idx : Type}.
Notation V := (Idx -> Q).
Variables f g hook : Q -> V -> V.
Variable d : Q.
Notation known := (Forall (fun p : Q * V => f (fst p) (snd p) = g (fst p) (snd p))).

Lemma known_loop k : forall s, known (loop_points f hook d k s) ->
  forall j, (j <= k)%nat -> iterate j (ssp104_stage f hook d) s = iterate j (ssp104_stage g hook d) s.
Proof.
  assert (R : forall (h : Q * V -> Q * V) j s, iterate (S j) h s = iterate j h (h s)).
  { intros h j. induction j; intros s; [reflexivity|]. cbn [iterate]. f_equal. apply IHj. }
  induction k; intros s H j Hj; destruct j as [|j]; try reflexivity; try lia.
  cbn [loop_points] in H. apply Forall_cons_iff in H as [H1 H]. cbn [fst snd] in H1.
  assert (E : ssp104_stage f hook d s = ssp104_stage g hook d s) by (unfold ssp104_stage, dq; cbv zeta; rewrite H1; reflexivity).
  rewrite !R. rewrite <- E. apply IHk; [exact H|lia].
Qed.
Lemma known_last k : forall s, known (loop_points f hook d (S k) s) ->
  let e := iterate k (ssp104_stage f hook d) s in f (fst e) (hook (fst e) (snd e)) = g (fst e) (hook (fst e) (snd e)).
Proof.
  assert (R : forall (h : Q * V -> Q * V) j s, iterate (S j) h s = iterate j h (h s)).
  { intros h j. induction j; intros s; [reflexivity|]. cbn [iterate]. f_equal. apply IHj. }
  induction k; intros s H; cbv zeta.
  - exact (Forall_inv H).
  - rewrite R. apply IHk. exact (Forall_inv_tail H).
Qed.
Variables (n : nat) (a : nat -> nat -> Q) (b c : nat -> Q).
Lemma known_registers k0 t q k : known (rk_points f hook d a c k k0 t q) ->
  rk_registers f hook d k a c k0 t q = rk_registers g hook d k a c k0 t q.
Proof.
  induction k; intros H; [reflexivity|]. cbn [rk_points] in H. apply Forall_app in H as [H1 H2]. cbn [rk_registers]. cbv zeta.
  rewrite <- (IHk H1). f_equal. f_equal. apply Forall_inv in H2. unfold rk_point in H2. cbn [fst snd] in H2. unfold rk_stage. cbv zeta. unfold dq.
  rewrite H2. reflexivity.
Qed.
Lemma known_stages {DX} (F G : DX -> Q -> V -> V) (l : Q -> sol V DX -> Q) I k (s : sol V DX) :
  F (sx s) = f -> G (sx s) = g -> known (stage_points f hook d n a c I k (st s) (sq s)) ->
  rk_stages F hook l n a b c I d k s = rk_stages G hook l n a b c I d k s.
Proof.
  intros EF EG H. unfold rk_stages. cbv zeta. rewrite EF, EG. f_equal. f_equal.
  destruct I; cbn [stage_points] in H; cbv zeta in H; try reflexivity.
  - apply Forall_inv in H. cbn [fst snd] in H. unfold ssp22, dq. cbv zeta. rewrite H. reflexivity.
  - apply Forall_cons_iff in H as [H1 H2]. apply Forall_inv in H2. cbn [fst snd] in H1, H2. unfold dq in H2. unfold ssp33, dq. cbv zeta.
    rewrite <- H1, <- H2. reflexivity.
  - apply Forall_app in H as [H1 H2]. unfold ssp104. cbv zeta. rewrite <- (known_loop 4 _ H1 4%nat (le_n 4)).
    rewrite <- (known_loop 5 _ H2 4%nat (le_S _ _ (le_n 4))). unfold dq. pose proof (known_last 4 _ H2) as E. cbv zeta in E. rewrite E. reflexivity.
  - unfold rk_user. cbv zeta. rewrite (known_registers _ _ _ _ H). reflexivity.
Qed.
Lemma loop_points_length k : forall s, length (loop_points f hook d k s) = k.
Proof. induction k; intros s; cbn [loop_points length]; [reflexivity|]. f_equal. apply IHk. Qed.
Lemma rk_points_length k0 t q k : length (rk_points f hook d a c k k0 t q) = k.
Proof. induction k; cbn [rk_points]; [reflexivity|]. rewrite app_length, IHk. cbn [length]. lia. Qed.
End Evaluations.

Lemma qtop_max l : 0 <= qtop l /\ Forall (fun c => c <= qtop l) l /\ (qtop l = 0 \/ In (qtop l) l).
Proof.
  unfold qtop. assert (H : forall l a, a <= fold_left pymax l a /\ Forall (fun c => c <= fold_left pymax l a) l /\
    (fold_left pymax l a = a \/ In (fold_left pymax l a) l)).
  { clear l. induction l as [|c l IH]; intros a; cbn [fold_left].
    - split; [apply Qle_refl|]. split; [constructor|]. left. reflexivity.
    - destruct (IH (pymax a c)) as (A & B & D). destruct (pymax_spec a c) as (P1 & P2 & P3).
      split; [exact (Qle_trans _ _ _ P1 A)|]. split.
      + constructor; [exact (Qle_trans _ _ _ P2 A)|exact B].
      + destruct D as [D|D]; [|right; right; exact D]. rewrite D. destruct P3 as [P3|P3]; rewrite P3; [left|right; left]; reflexivity. }
  apply H.
Qed.
