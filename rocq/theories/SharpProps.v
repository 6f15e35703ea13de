(** Properties C27 and C28: SharpClaw's Runge-Kutta integrators.
    [euler], [ssp22], [ssp33], [ssp104] and [rk_user] are the update formulas of SharpClawSolver.step; their
    argument k0 is dq_dt, the slope at the beginning of the step (computed at line 293). *)
From Verif Require Import Base SharpModel SharpSpec SharpProofs.

(** A concrete right-hand side on two unknowns, depending on time: (x, y)' = (y, t - x*x). *)
Definition demo_f (t : Q) (q : bool -> Q) : bool -> Q := fun i => if i then q false else t - q true * q true.
Definition demo_q : bool -> Q := fun i => if i then 1 else 2.
Lemma demo_f_ext : extensional demo_f.
Proof.
  intros t t' u v Et E i. unfold demo_f. destruct i; [apply E|]. rewrite Et, (E true). reflexivity.
Qed.

(** ** C27: with no per-stage hook each integrator computes the step of the Runge-Kutta method it names. *)
Theorem C27_euler : forall (Idx : Type) (f : Q -> (Idx -> Q) -> Idx -> Q) dt t q,
  extensional f -> rk_step tab_euler f dt t q (euler dt (f t q) t q).
Proof. intros. apply euler_rk; assumption. Qed.
Print Assumptions C27_euler.
Theorem C27_ssp22 : forall (Idx : Type) (f : Q -> (Idx -> Q) -> Idx -> Q) dt t q,
  extensional f -> rk_step tab_ssp22 f dt t q (ssp22 f (fun _ q => q) dt (f t q) t q).
Proof. intros. apply ssp22_rk; assumption. Qed.
Print Assumptions C27_ssp22.
Theorem C27_ssp33 : forall (Idx : Type) (f : Q -> (Idx -> Q) -> Idx -> Q) dt t q,
  extensional f -> rk_step tab_ssp33 f dt t q (ssp33 f (fun _ q => q) dt (f t q) t q).
Proof. intros. apply ssp33_rk; assumption. Qed.
Print Assumptions C27_ssp33.
Theorem C27_ssp104 : forall (Idx : Type) (f : Q -> (Idx -> Q) -> Idx -> Q) dt t q,
  extensional f -> rk_step tab_ssp104 f dt t q (ssp104 f (fun _ q => q) dt (f t q) t q).
Proof. intros. apply ssp104_rk; assumption. Qed.
Print Assumptions C27_ssp104.
(** 'RK' with coefficients a (strictly lower triangular), b, c (c_0 = 0) given by the user. *)
Theorem C27_user_rk : forall (Idx : Type) (f : Q -> (Idx -> Q) -> Idx -> Q) dt t q T,
  extensional f -> (0 < stages T)%nat -> explicit T -> tc T 0%nat == 0 ->
  rk_step T f dt t q (rk_user f (fun _ q => q) dt (stages T) (ta T) (tb T) (tc T) (f t q) t q).
Proof. intros Idx f dt t q [s a b c] He Hs Hx H0. apply rk_user_rk; assumption. Qed.
Print Assumptions C27_user_rk.

(** The slopes of an explicit method are determined by the formulas, so [rk_step] has only one result. *)
Theorem C27_rk_step_unique : forall (Idx : Type) (f : Q -> (Idx -> Q) -> Idx -> Q) T dt t q q1 q2,
  extensional f -> explicit T -> rk_step T f dt t q q1 -> rk_step T f dt t q q2 -> veq q1 q2.
Proof. intros. eapply rk_step_unique; eauto. Qed.
Print Assumptions C27_rk_step_unique.

Definition explicitb (T : tableau) : bool :=
  forallb (fun i => forallb (fun j => Nat.ltb j i || qeqb (ta T i j) 0) (seq 0 (stages T))) (seq 0 (stages T)).
Lemma explicitb_spec T : explicitb T = true -> explicit T.
Proof.
  intros H i j Hi Hij Hj. unfold explicitb in H. rewrite forallb_forall in H.
  specialize (H i ltac:(apply in_seq; lia)). rewrite forallb_forall in H.
  specialize (H j ltac:(apply in_seq; lia)). apply orb_prop in H. destruct H as [H|H].
  - apply Nat.ltb_lt in H. lia.
  - apply Qeq_bool_eq in H. exact H.
Qed.
Definition row_sumsb (T : tableau) : bool :=
  forallb (fun i => qeqb (tc T i) (sum_n (stages T) (fun j => ta T i j))) (seq 0 (stages T)).
Lemma row_sumsb_spec T : row_sumsb T = true -> row_sums T.
Proof.
  intros H i Hi. unfold row_sumsb in H. rewrite forallb_forall in H.
  specialize (H i ltac:(apply in_seq; lia)). apply Qeq_bool_eq in H. exact H.
Qed.

(** The tableaux are explicit and satisfy the conditions for order 1, 2, 3 and 4. *)
Theorem C27_orders :
  (explicit tab_euler /\ row_sums tab_euler /\ order1 tab_euler) /\
  (explicit tab_ssp22 /\ row_sums tab_ssp22 /\ order1 tab_ssp22 /\ order2 tab_ssp22) /\
  (explicit tab_ssp33 /\ row_sums tab_ssp33 /\ order1 tab_ssp33 /\ order2 tab_ssp33 /\ order3 tab_ssp33) /\
  (explicit tab_ssp104 /\ row_sums tab_ssp104 /\ order1 tab_ssp104 /\ order2 tab_ssp104 /\
   order3 tab_ssp104 /\ order4 tab_ssp104).
Proof.
  repeat split; try (apply explicitb_spec; vm_compute; reflexivity);
    try (apply row_sumsb_spec; vm_compute; reflexivity); vm_compute; reflexivity.
Qed.
Print Assumptions C27_orders.

(** The right-hand side above, and the classical fourth-order Runge-Kutta method as user coefficients,
    meet the hypotheses. *)
Definition demo_rk4 := mkTab 4 (lower_part [[]; [1 # 2]; [0; 1 # 2]; [0; 0; 1]])
  (fun i => nth i [1 # 6; 1 # 3; 1 # 3; 1 # 6] 0) (fun i => nth i [0; 1 # 2; 1 # 2; 1] 0).
Example C27_example :
  extensional demo_f /\ explicit demo_rk4 /\ (0 < stages demo_rk4)%nat /\ tc demo_rk4 0%nat == 0 /\ order4 demo_rk4 /\
  (qeqb (ssp33 demo_f (fun _ q => q) (1 # 2) (demo_f 0 demo_q) 0 demo_q true) (85 # 48)) = true /\
  (qeqb (rk_user demo_f (fun _ q => q) (1 # 2) 4 (ta demo_rk4) (tb demo_rk4) (tc demo_rk4) (demo_f 0 demo_q) 0 demo_q true)
       (3685 # 2048)) = true.
Proof.
  split; [exact demo_f_ext|]. split; [apply explicitb_spec; vm_compute; reflexivity|].
  split; [cbn; lia|]. split; [reflexivity|]. split; [repeat split; vm_compute; reflexivity|].
  split; vm_compute; reflexivity.
Qed.

(** ** C28: an integrator keeps every convex set that forward Euler steps up to size h keep: SSP22 and SSP33
    for steps up to h, SSP104 for steps up to 6h.  The per-stage hook may be any function that keeps the set. *)
Theorem C28_euler : forall (Idx : Type) (f : Q -> (Idx -> Q) -> Idx -> Q) (K : (Idx -> Q) -> Prop) h dt t q,
  convex K -> euler_keeps K f h -> 0 <= dt -> dt <= h -> K q -> K (euler dt (f t q) t q).
Proof. intros. eapply euler_ssp; eauto. Qed.
Print Assumptions C28_euler.
Theorem C28_ssp22 : forall (Idx : Type) (f hook : Q -> (Idx -> Q) -> Idx -> Q) (K : (Idx -> Q) -> Prop) h dt t q,
  convex K -> euler_keeps K f h -> (forall t q, K q -> K (hook t q)) ->
  0 <= dt -> dt <= h -> K q -> K (ssp22 f hook dt (f t q) t q).
Proof. intros. eapply ssp22_ssp; eauto. Qed.
Print Assumptions C28_ssp22.
Theorem C28_ssp33 : forall (Idx : Type) (f hook : Q -> (Idx -> Q) -> Idx -> Q) (K : (Idx -> Q) -> Prop) h dt t q,
  convex K -> euler_keeps K f h -> (forall t q, K q -> K (hook t q)) ->
  0 <= dt -> dt <= h -> K q -> K (ssp33 f hook dt (f t q) t q).
Proof. intros. eapply ssp33_ssp; eauto. Qed.
Print Assumptions C28_ssp33.
Theorem C28_ssp104 : forall (Idx : Type) (f hook : Q -> (Idx -> Q) -> Idx -> Q) (K : (Idx -> Q) -> Prop) h dt t q,
  convex K -> euler_keeps K f h -> (forall t q, K q -> K (hook t q)) ->
  0 <= dt -> dt <= 6 * h -> K q -> K (ssp104 f hook dt (f t q) t q).
Proof. intros. eapply ssp104_ssp; eauto. Qed.
Print Assumptions C28_ssp104.

(** Decay q' = -q keeps q between 0 and 1 for forward Euler steps up to 1; and the bounds are sharp: an SSP33
    step of size 5 and an SSP104 step of size 60 leave the set. *)
Definition demo_decay (t : Q) (q : unit -> Q) : unit -> Q := fun i => - q i.
Definition demo_K (q : unit -> Q) : Prop := 0 <= q tt <= 1.
Example C28_example :
  convex demo_K /\ euler_keeps demo_K demo_decay 1 /\ demo_K (fun _ => 1) /\
  ~ demo_K (ssp33 demo_decay (fun _ q => q) 5 (demo_decay 0 (fun _ => 1)) 0 (fun _ => 1)) /\
  ~ demo_K (ssp104 demo_decay (fun _ q => q) 60 (demo_decay 0 (fun _ => 1)) 0 (fun _ => 1)).
Proof.
  split; [|split; [|split; [|split]]].
  - split.
    + intros u v E H. unfold demo_K in *. rewrite <- (E tt). exact H.
    + intros a b u v Ha Hb Hab [H1 H2] [H3 H4]. unfold demo_K. split; nra.
  - intros d t q H0 H1 [H2 H3]. unfold demo_K, demo_decay. split; nra.
  - unfold demo_K. lra.
  - unfold demo_K. intros [H _]. vm_compute in H. apply H. reflexivity.
  - unfold demo_K. intros [_ H]. vm_compute in H. apply H. reflexivity.
Qed.
