(** Proofs about the SharpClaw time integrators: Runge-Kutta form and strong stability. *)
From Verif Require Import Base SharpModel SharpSpec.

Lemma sum_n_ext n g h : (forall i, (i < n)%nat -> g i == h i) -> sum_n n g == sum_n n h.
Proof.
  induction n; simpl; intros H; [reflexivity|]. rewrite (IHn (fun i Hi => H i ltac:(lia))), (H n) by lia. reflexivity.
Qed.

(** Reduce the tableaux to linear expressions in the slopes. *)
Ltac tab := cbv [tab_euler tab_ssp22 tab_ssp33 tab_ssp104 lower_part stages ta tb tc sum_n nth].
Ltac vec := cbv [vadd vscale dq].

Section RK.
Variable Idx : Type.
Notation V := (Idx -> Q).
Variable f : Q -> V -> V.
Hypothesis fext : extensional f.
Definition no_hook : Q -> V -> V := fun _ q => q.

Lemma euler_rk dt t q : rk_step tab_euler f dt t q (euler dt (f t q) t q).
Proof.
  exists (fun _ => f t q). split.
  - intros i Hi. apply fext; [tab; ring | intros x; tab; ring].
  - intros x. unfold euler. vec. tab. ring.
Qed.

Lemma ssp22_rk dt t q : rk_step tab_ssp22 f dt t q (ssp22 f no_hook dt (f t q) t q).
Proof.
  set (k0 := f t q). unfold ssp22, no_hook. cbv zeta. set (y1 := vadd q (vscale dt k0)).
  exists (fun i => match i with O => k0 | _ => f (t + dt) y1 end). split.
  - intros i Hi. simpl in Hi. destruct i as [|[|i]]; [| |lia].
    + apply fext; [tab; ring | intros x; tab; ring].
    + apply fext; [tab; ring | intros x; subst y1; vec; tab; ring].
  - intros x. vec. tab. fold y1. set (k1 := f (t + dt) y1). subst y1. vec. field.
Qed.

Lemma ssp33_rk dt t q : rk_step tab_ssp33 f dt t q (ssp33 f no_hook dt (f t q) t q).
Proof.
  set (k0 := f t q). unfold ssp33, no_hook. cbv zeta. unfold dq. set (y1 := vadd q (vscale dt k0)).
  set (k1 := f (t + dt) y1).
  set (y2 := vadd (vscale (3 # 4) q) (vscale (1 # 4) (vadd y1 (vscale dt k1)))).
  set (k2 := f (t + (1 # 2) * dt) y2).
  exists (fun i => match i with O => k0 | 1%nat => k1 | _ => k2 end). split.
  - intros i Hi. simpl in Hi. destruct i as [|[|[|i]]]; [| | |lia]; apply fext.
    1, 3, 5: tab; ring.
    all: intros x; subst y1 y2; vec; tab; field.
  - intros x. subst y2 y1. vec. tab. field.
Qed.

Lemma ssp104_rk dt t q : rk_step tab_ssp104 f dt t q (ssp104 f no_hook dt (f t q) t q).
Proof.
  set (k0 := f t q). unfold ssp104, no_hook. cbn [iterate]. unfold ssp104_stage. cbn [fst snd]. unfold dq. cbv zeta.
  cbn [fst snd].
  set (y1 := vadd q (vscale (dt / 6) k0)). set (k1 := f (t + dt / 6) y1).
  set (y2 := vadd y1 (vscale (1 / 6) (vscale dt k1))). set (k2 := f (t + dt / 6 + dt / 6) y2).
  set (y3 := vadd y2 (vscale (1 / 6) (vscale dt k2))). set (k3 := f (t + dt / 6 + dt / 6 + dt / 6) y3).
  set (y4 := vadd y3 (vscale (1 / 6) (vscale dt k3))). set (k4 := f (t + dt / 6 + dt / 6 + dt / 6 + dt / 6) y4).
  set (y5 := vadd y4 (vscale (1 / 6) (vscale dt k4))).
  set (q' := vadd (vscale (1 / 25) q) (vscale (36 # 100) y5)).
  set (z0 := vadd (vscale 15 q') (vscale (-(5)) y5)). set (k5 := f (t + dt / 3) z0).
  set (z1 := vadd z0 (vscale (1 / 6) (vscale dt k5))). set (k6 := f (t + dt / 3 + dt / 6) z1).
  set (z2 := vadd z1 (vscale (1 / 6) (vscale dt k6))). set (k7 := f (t + dt / 3 + dt / 6 + dt / 6) z2).
  set (z3 := vadd z2 (vscale (1 / 6) (vscale dt k7))). set (k8 := f (t + dt / 3 + dt / 6 + dt / 6 + dt / 6) z3).
  set (z4 := vadd z3 (vscale (1 / 6) (vscale dt k8))).
  set (k9 := f (t + dt / 3 + dt / 6 + dt / 6 + dt / 6 + dt / 6) z4).
  exists (fun i => nth i [k0; k1; k2; k3; k4; k5; k6; k7; k8; k9] k0). split.
  - intros i Hi. change (stages tab_ssp104) with 10%nat in Hi.
    do 10 (destruct i as [|i]; [apply fext; [tab; field | intros x; subst z4 z3 z2 z1 z0 q' y5 y4 y3 y2 y1; vec; tab; field]|]).
    lia.
  - intros x. subst z4 z3 z2 z1 z0 q' y5 y4 y3 y2 y1. vec. tab. field.
Qed.

(** The user method. *)
Lemma fold_terms (w : nat -> Q) (r : nat -> V) n y0 x :
  fold_left (fun y j => vadd y (vscale (w j) (r j))) (seq 0 n) y0 x == y0 x + sum_n n (fun j => w j * r j x).
Proof.
  induction n as [|n IH]; [simpl; ring|].
  rewrite seq_S, fold_left_app. cbn [fold_left sum_n]. cbv [vadd vscale] in *. rewrite IH. rewrite Nat.add_0_l. ring.
Qed.
Lemma sum_n_split n m g : sum_n (n + m) g == sum_n n g + sum_n m (fun j => g (n + j)%nat).
Proof.
  induction m as [|m IH]; [rewrite Nat.add_0_r; simpl; ring|].
  rewrite Nat.add_succ_r. cbn [sum_n]. rewrite IH. ring.
Qed.
Lemma sum_n_zero n g : (forall i, (i < n)%nat -> g i == 0) -> sum_n n g == 0.
Proof. induction n; simpl; intros H; [reflexivity|]. rewrite IHn by (intros; apply H; lia). rewrite H by lia. ring. Qed.
Lemma sum_n_scale n a g : sum_n n (fun i => a * g i) == a * sum_n n g.
Proof. induction n; simpl; [ring|]. rewrite IHn. ring. Qed.

Lemma rk_registers_length dt n a c k0 t q : length (rk_registers f no_hook dt n a c k0 t q) = S n.
Proof. induction n; simpl; auto. rewrite app_length, IHn. simpl. lia. Qed.
Lemma rk_registers_nth dt n m a c k0 t q j : (m <= n)%nat -> (j <= m)%nat ->
  nth j (rk_registers f no_hook dt n a c k0 t q) (fun _ => 0) = nth j (rk_registers f no_hook dt m a c k0 t q) (fun _ => 0).
Proof.
  intros H Hj. induction n as [|n IH].
  - assert (m = 0)%nat by lia. subst. auto.
  - destruct (Nat.eq_dec m (S n)) as [->|E]; auto.
    rewrite <- IH by lia. cbn [rk_registers]. rewrite app_nth1; auto. rewrite rk_registers_length. lia.
Qed.

Lemma fold_left_ext_in {A B} (g h : A -> B -> A) l : (forall a b, In b l -> g a b = h a b) ->
  forall a, fold_left g l a = fold_left h l a.
Proof.
  induction l as [|b l IH]; simpl; intros H a; auto. rewrite H by auto. apply IH. intros; apply H; auto.
Qed.

Lemma rk_user_rk dt t q s a b c : (0 < s)%nat -> explicit (mkTab s a b c) -> c O == 0 ->
  rk_step (mkTab s a b c) f dt t q (rk_user f no_hook dt s a b c (f t q) t q).
Proof.
  intros Hs Hex Hc. set (R := rk_registers f no_hook dt (s - 1) a c (f t q) t q).
  (* the value and the slope of stage i *)
  set (Y := fun i : nat => fold_left (fun y j => vadd y (vscale (a i j) (nth j R (fun _ => 0)))) (seq 0 i) q).
  set (k := fun i : nat => match i with O => f t q | _ => f (t + dt * c i) (Y i) end).
  assert (HR : forall i, (i < s)%nat -> nth i R (fun _ => 0) = vscale dt (k i)).
  { intros [|i] Hi.
    - unfold R. rewrite (rk_registers_nth dt (s - 1) 0) by lia. reflexivity.
    - unfold R. rewrite (rk_registers_nth dt (s - 1) (S i)) by lia. cbn [rk_registers].
      rewrite app_nth2; rewrite rk_registers_length; [|lia]. rewrite Nat.sub_diag. cbn [nth].
      unfold rk_stage. rewrite rk_registers_length. unfold dq, k. f_equal. f_equal.
      unfold Y, no_hook at 1. apply fold_left_ext_in. intros y j Hj. apply in_seq in Hj.
      do 2 f_equal. unfold R. symmetry. apply (rk_registers_nth dt (s - 1) i); lia. }
  assert (HS : forall w n x, (n <= s)%nat ->
    sum_n n (fun j => w j * nth j R (fun _ => 0) x) == dt * sum_n n (fun j => w j * k j x)).
  { intros w n x Hn. rewrite <- sum_n_scale. apply sum_n_ext. intros i Hi. rewrite HR by lia. cbv [vscale]. ring. }
  assert (HY : forall i x, (i < s)%nat -> Y i x == q x + dt * sum_n s (fun j => a i j * k j x)).
  { intros i x Hi. unfold Y. rewrite (fold_terms (a i) (fun j => nth j R (fun _ => 0)) i q x), HS by lia.
    assert (Es : sum_n s (fun j => a i j * k j x) == sum_n (i + (s - i)) (fun j => a i j * k j x)).
    { replace (i + (s - i))%nat with s by lia. reflexivity. }
    rewrite Es, sum_n_split. rewrite (sum_n_zero (s - i)); [ring|]. intros j Hj.
    rewrite (Hex i (i + j)%nat) by (simpl; lia). ring. }
  exists k. split.
  - intros i Hi. cbn [stages ta tb tc] in *. destruct i as [|i].
    + unfold k at 1. apply fext; [rewrite Hc; ring|]. intros x. rewrite <- (HY O x Hi). reflexivity.
    + unfold k at 1. apply fext; [ring|]. intros x. apply HY; auto.
  - intros x. unfold rk_user. fold R. cbn [stages tb].
    rewrite (fold_terms b (fun j => nth j R (fun _ => 0)) s q x), HS by lia. reflexivity.
Qed.

(** An explicit method has only one result. *)
Lemma rk_step_unique T dt t q q1 q2 : explicit T -> rk_step T f dt t q q1 -> rk_step T f dt t q q2 -> veq q1 q2.
Proof.
  intros E (k & K1 & K2) (h & H1 & H2).
  assert (G : forall n i, (i < n)%nat -> (i < stages T)%nat -> veq (k i) (h i)).
  { induction n as [|n IH]; intros i Hi Hs; [lia|]. intros x. rewrite (K1 i Hs x), (H1 i Hs x).
    apply fext; [reflexivity|]. intros y.
    rewrite (sum_n_ext (stages T) _ (fun j => ta T i j * h j y)); [reflexivity|].
    intros j Hj. destruct (Nat.ltb j i) eqn:L.
    - apply Nat.ltb_lt in L. rewrite (IH j ltac:(lia) Hj y). reflexivity.
    - apply Nat.ltb_ge in L. rewrite (E i j) by auto. ring. }
  intros x. rewrite (K2 x), (H2 x).
  rewrite (sum_n_ext (stages T) _ (fun i => tb T i * h i x)); [reflexivity|].
  intros i Hi. rewrite (G (S i) i ltac:(lia) Hi x). reflexivity.
Qed.
End RK.

(** ** Strong stability *)
Section SSP.
Variable Idx : Type.
Notation V := (Idx -> Q).
Variable f hook : Q -> V -> V.
Variable K : V -> Prop.
Variable h : Q.
Hypothesis Kconv : convex K.
Hypothesis KE : euler_keeps K f h.
Hypothesis Khook : forall t q, K q -> K (hook t q).

Lemma K_eq u v : veq u v -> K u -> K v.
Proof. exact (proj1 Kconv u v). Qed.
Lemma K_comb a b u v w : 0 <= a -> 0 <= b -> a + b == 1 -> K u -> K v ->
  (forall i, w i == a * u i + b * v i) -> K w.
Proof.
  intros A B C U W E. apply (K_eq (fun i => a * u i + b * v i)); [|apply (proj2 Kconv); auto].
  intros i. rewrite E. reflexivity.
Qed.
Lemma K_euler d t q w : 0 <= d -> d <= h -> K q -> (forall i, w i == q i + d * f t q i) -> K w.
Proof.
  intros A B C E. apply (K_eq (fun i => q i + d * f t q i)); [|apply KE; auto]. intros i. rewrite E. reflexivity.
Qed.

Lemma euler_ssp dt t q : 0 <= dt -> dt <= h -> K q -> K (euler dt (f t q) t q).
Proof. intros. apply (K_euler dt t q); auto. intros i. reflexivity. Qed.
Lemma ssp22_ssp dt t q : 0 <= dt -> dt <= h -> K q -> K (ssp22 f hook dt (f t q) t q).
Proof.
  intros A B C. unfold ssp22. cbv zeta.
  assert (R : K (hook (t + dt) (vadd q (vscale dt (f t q))))).
  { apply Khook. apply (K_euler dt t q); auto. intros i. reflexivity. }
  set (r := hook _ _) in *.
  apply (K_comb (1 # 2) (1 # 2) q (fun i => r i + dt * f (t + dt) r i)); auto; try lra.
  intros i. cbv [vadd vscale dq]. ring.
Qed.
Lemma ssp33_ssp dt t q : 0 <= dt -> dt <= h -> K q -> K (ssp33 f hook dt (f t q) t q).
Proof.
  intros A B C. unfold ssp33. cbv zeta.
  assert (R : K (hook (t + dt) (vadd q (vscale dt (f t q))))).
  { apply Khook. apply (K_euler dt t q); auto. intros i. reflexivity. }
  set (r := hook (t + dt) _) in *.
  assert (R2 : K (hook (t + (1 # 2) * dt) (vadd (vscale (3 # 4) q) (vscale (1 # 4) (vadd r (dq f dt (t + dt) r)))))).
  { apply Khook. apply (K_comb (3 # 4) (1 # 4) q (fun i => r i + dt * f (t + dt) r i)); auto; try lra.
    intros i. cbv [vadd vscale dq]. ring. }
  set (r2 := hook (t + (1 # 2) * dt) _) in *.
  apply (K_comb (1 # 3) (2 # 3) q (fun i => r2 i + dt * f (t + (1 # 2) * dt) r2 i)); auto; try lra.
  intros i. cbv [vadd vscale dq]. ring.
Qed.
Lemma stage_ssp dt s : 0 <= dt -> dt <= 6 * h -> K (snd s) -> K (snd (ssp104_stage f hook dt s)).
Proof.
  intros A B C. unfold ssp104_stage. cbv zeta. cbn [snd]. set (r := hook (fst s) (snd s)).
  assert (K r) by (apply Khook; auto).
  apply (K_euler (dt / 6) (fst s) r); auto.
  - apply Qle_shift_div_l; lra.
  - apply Qle_shift_div_r; lra.
  - intros i. subst r. cbv [vadd vscale dq]. field.
Qed.
Lemma iterate_ssp dt n s : 0 <= dt -> dt <= 6 * h -> K (snd s) -> K (snd (iterate n (ssp104_stage f hook dt) s)).
Proof. intros A B C. induction n; cbn [iterate]; auto. apply stage_ssp; auto. Qed.
Lemma ssp104_ssp dt t q : 0 <= dt -> dt <= 6 * h -> K q -> K (ssp104 f hook dt (f t q) t q).
Proof.
  intros A B C. unfold ssp104. cbv zeta.
  set (s1 := iterate 4 _ (t + dt / 6, _)).
  assert (S1 : K (snd s1)).
  { apply iterate_ssp; auto. cbn [snd]. apply (K_euler (dt / 6) t q); auto.
    - apply Qle_shift_div_l; lra.
    - apply Qle_shift_div_r; lra.
    - intros i. reflexivity. }
  set (q' := vadd (vscale (1 / 25) q) _).
  set (s2 := iterate 4 _ (t + dt / 3, _)).
  assert (S2 : K (snd s2)).
  { apply iterate_ssp; auto. cbn [snd]. apply (K_comb (6 # 10) (4 # 10) q (snd s1)); auto; try lra.
    intros i. unfold q'. cbv [vadd vscale]. field. }
  set (r := hook (fst s2) (snd s2)). assert (R : K r) by (apply Khook; auto).
  apply (K_comb (4 # 10) (6 # 10) (fun i => (1 # 10) * q i + (9 # 10) * snd s1 i)
                (fun i => r i + dt / 6 * f (fst s2) r i)); try lra.
  - apply (K_comb (1 # 10) (9 # 10) q (snd s1)); auto; try lra. intros; reflexivity.
  - apply KE; auto; [apply Qle_shift_div_l | apply Qle_shift_div_r]; lra.
  - intros i. subst r. unfold q'. cbv [vadd vscale dq]. field.
Qed.
End SSP.
