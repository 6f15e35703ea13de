(** Proofs about parallel SharpClaw runs, part 3: the stages of a step, and whole runs. *)
From Verif Require Import Base TimeModel BCModel BCSpec Classic1DModel Classic1DSpec Classic1DProofs3 SharpModel SemiModel SemiSpec RunModel
  GeometrySpec ParallelModel ParallelSpec ParallelProofs4 PSharpModel PSharpSpec PSharpProofs PSharpProofs2.

Section Stages.
Context {Idx : Type}.
Notation V := (Idx -> Q).
Variable P : Idx -> Prop.
Definition same (u v : V) : Prop := forall i, P i -> u i = v i.
Variables f g hook : Q -> V -> V.
Hypothesis Hf : forall t u v, same u v -> same (f t u) (g t v).
Hypothesis Hh : forall t u v, same u v -> same (hook t u) (hook t v).
Variable d : Q.

Lemma same_add u v u' v' : same u v -> same u' v' -> same (vadd u u') (vadd v v').
Proof. intros A B i Hi. unfold vadd. rewrite (A i Hi), (B i Hi). reflexivity. Qed.
Lemma same_scale a u v : same u v -> same (vscale a u) (vscale a v).
Proof. intros A i Hi. unfold vscale. rewrite (A i Hi). reflexivity. Qed.
Lemma same_dq t u v : same u v -> same (dq f d t u) (dq g d t v).
Proof. intros A. apply same_scale. apply Hf. exact A. Qed.
Hint Resolve same_add same_scale same_dq Hh : same.

Lemma same_stage s s' : fst s = fst s' -> same (snd s) (snd s') ->
  fst (ssp104_stage f hook d s) = fst (ssp104_stage g hook d s') /\ same (snd (ssp104_stage f hook d s)) (snd (ssp104_stage g hook d s')).
Proof. intros E H. unfold ssp104_stage. cbn [fst snd]. rewrite <- E. auto 10 with same. Qed.
Lemma same_iterate n : forall s s', fst s = fst s' -> same (snd s) (snd s') ->
  fst (iterate n (ssp104_stage f hook d) s) = fst (iterate n (ssp104_stage g hook d) s') /\
  same (snd (iterate n (ssp104_stage f hook d) s)) (snd (iterate n (ssp104_stage g hook d) s')).
Proof. induction n; intros s s' E H; cbn [iterate]; [auto|]. destruct (IHn s s' E H). apply same_stage; assumption. Qed.
Definition same_point (p p' : Q * V) : Prop := fst p = fst p' /\ same (snd p) (snd p').
Lemma same_loop n : forall s s', fst s = fst s' -> same (snd s) (snd s') ->
  Forall2 same_point (loop_points f hook d n s) (loop_points g hook d n s').
Proof.
  induction n; intros s s' E H; cbn [loop_points]; [constructor|]. constructor.
  - split; cbn [fst snd]; [exact E|]. rewrite <- E. auto with same.
  - destruct (same_stage s s' E H). apply IHn; assumption.
Qed.

Variables (n : nat) (a : nat -> nat -> Q) (b c : nat -> Q).
Lemma same_fold (w : nat -> Q) regs regs' : Forall2 same regs regs' -> forall js y y', same y y' ->
  same (fold_left (fun y j => vadd y (vscale (w j) (nth j regs (fun _ => 0)))) js y)
       (fold_left (fun y j => vadd y (vscale (w j) (nth j regs' (fun _ => 0)))) js y').
Proof.
  intros HR. assert (HN : forall j, same (nth j regs (fun _ => 0)) (nth j regs' (fun _ => 0))).
  { induction HR; intros [|j]; cbn [nth]; auto; intros i _; reflexivity. }
  induction js as [|j js IH]; intros y y' H; cbn [fold_left]; [exact H|]. apply IH. auto with same.
Qed.
Lemma same_length (A B : Type) (R : A -> B -> Prop) l l' : Forall2 R l l' -> length l = length l'.
Proof. induction 1; cbn [length]; congruence. Qed.
Lemma same_rk_point t q q' regs regs' : Forall2 same regs regs' -> same q q' ->
  same_point (rk_point hook d a c t q regs) (rk_point hook d a c t q' regs').
Proof.
  intros HR Hq. unfold rk_point. rewrite <- (same_length _ _ _ _ _ HR). split; cbn [fst snd]; [reflexivity|]. apply same_fold; auto with same.
Qed.
Lemma same_regs k k' t q q' : same k k' -> same q q' -> forall j,
  Forall2 same (rk_registers f hook d j a c k t q) (rk_registers g hook d j a c k' t q').
Proof.
  intros Hk Hq. induction j; cbn [rk_registers]; [constructor; [auto with same|constructor]|].
  cbv zeta. apply Forall2_app; [exact IHj|]. constructor; [|constructor].
  destruct (same_rk_point t q q' _ _ IHj Hq) as [E H]. unfold rk_point in E, H. unfold rk_stage. cbn [fst snd] in E, H.
  rewrite <- (same_length _ _ _ _ _ IHj) in *. apply same_dq. exact H.
Qed.
Lemma same_rk_points k k' t q q' : same k k' -> same q q' -> forall j,
  Forall2 same_point (rk_points f hook d a c j k t q) (rk_points g hook d a c j k' t q').
Proof.
  intros Hk Hq. induction j; cbn [rk_points]; [constructor|]. apply Forall2_app; [exact IHj|]. constructor; [|constructor].
  apply same_rk_point; [apply same_regs; assumption|exact Hq].
Qed.

Lemma same_points I k k' t q q' : same k k' -> same q q' ->
  Forall2 same_point (stage_points f hook d n a c I k t q) (stage_points g hook d n a c I k' t q').
Proof.
  intros Hk Hq. destruct I; cbn [stage_points]; cbv zeta.
  - constructor.
  - constructor; [|constructor]. split; cbn [fst snd]; auto with same.
  - constructor; [|constructor; [|constructor]]; (split; cbn [fst snd]; [reflexivity|]); auto 10 with same.
  - set (s0 := (t + d / 6, vadd q (vscale (d / 6) k))). set (s0' := (t + d / 6, vadd q' (vscale (d / 6) k'))).
    assert (H0 : same (snd s0) (snd s0')) by (unfold s0, s0'; cbn [snd]; auto with same).
    destruct (same_iterate 4 s0 s0' eq_refl H0) as [E1 H1]. apply Forall2_app; apply same_loop; cbn [fst snd]; auto 10 with same.
  - apply same_rk_points; assumption.
  - constructor.
  - constructor.
  - constructor.
Qed.
Lemma same_stages {DX} (F G : DX -> Q -> V -> V) (l1 l2 : Q -> sol V DX -> Q) I k k' (s s' : sol V DX) :
  F (sx s) = f -> G (sx s') = g -> st s = st s' -> same k k' -> same (sq s) (sq s') ->
  same (fst (fst (rk_stages F hook l1 n a b c I d k s))) (fst (fst (rk_stages G hook l2 n a b c I d k' s'))).
Proof.
  intros EF EG Et Hk Hq. unfold rk_stages. cbv zeta. cbn [fst]. rewrite EF, EG, <- Et.
  destruct I; try exact Hq.
  - unfold euler. auto with same.
  - unfold ssp22. cbv zeta. auto 10 with same.
  - unfold ssp33. cbv zeta. auto 20 with same.
  - unfold ssp104. cbv zeta.
    set (s0 := (st s + d / 6, vadd (sq s) (vscale (d / 6) k))). set (s0' := (st s + d / 6, vadd (sq s') (vscale (d / 6) k'))).
    assert (H0 : same (snd s0) (snd s0')) by (unfold s0, s0'; cbn [snd]; auto with same).
    destruct (same_iterate 4 s0 s0' eq_refl H0) as [E1 H1].
    set (u := iterate 4 _ s0) in *. set (u' := iterate 4 _ s0') in *.
    set (s2 := (st s + d / 3, _)). set (s2' := (st s + d / 3, vadd (vscale 15 (vadd (vscale (1 / 25) (sq s')) _)) _)).
    assert (H2 : same (snd s2) (snd s2')) by (unfold s2, s2'; cbn [snd]; auto 10 with same).
    destruct (same_iterate 4 s2 s2' eq_refl H2) as [E3 H3]. rewrite <- E3. auto 20 with same.
  - unfold rk_user. cbv zeta. apply same_fold; [|exact Hq]. apply same_regs; assumption.
Qed.
End Stages.

Lemma qtop_eq l l' : Forall2 Qeq l l' -> qtop l == qtop l'.
Proof.
  unfold qtop. assert (H : forall c c', c == c' -> Forall2 Qeq l l' -> fold_left pymax l c == fold_left pymax l' c').
  { intros c c' Hc HF. revert c c' Hc. induction HF; intros c c' Hc; cbn [fold_left]; [exact Hc|]. apply IHHF. apply pymax_eq; assumption. }
  apply H. reflexivity.
Qed.

Definition cell_of (C : settings) (mi : Z * Z) : Prop := (0 <= fst mi < Z.of_nat (c_neq C))%Z /\ (0 <= snd mi < ncells (c_bc C))%Z.
Lemma agree_same C u v : agree C u v <-> same (cell_of C) u v.
Proof.
  split.
  - intros H [m i] [Hm Hi]. apply H; assumption.
  - intros H m i Hm Hi. apply (H (m, i)). split; assumption.
Qed.

Section Runs.
Context {X : Type}.
Variable C : settings.
Variable bs : list (Z * Z).
Variable M : Z -> method.
Hypothesis Hg : (3 <= c_ng C)%nat.
Hypothesis HF : fit_dim (c_ng C) (has_aux C) (Z.of_nat (c_neq C)) (c_bc C).
Hypothesis HD : decomposed (c_ng C) (ncells (c_bc C)) bs.
Hypothesis HM : local_fortran C M.
Hypothesis HN : c_capa C = None.
Variable left : arr Q -> (Z * Z -> Q) -> arr Q * arr Q.
Variable left' : arr Q -> (Z * Z -> Q) -> arr Q.
Variable src : arr Q * X -> Q -> (Z * Z -> Q) -> Z * Z -> Q.
Variable hook : Q -> (Z * Z -> Q) -> Z * Z -> Q.
Variable before : sol (Z * Z -> Q) (arr Q * X) -> (Z * Z -> Q) * (arr Q * X).
Hypothesis Hsrc : local_src C src.
Hypothesis Hhook : local_hook C hook.
Hypothesis Hbef : local_before C before.

Lemma ev_agree aux aux' u u' : same_cells (c_naux C) (ncells (c_bc C)) aux aux' -> agree C u u' ->
  agree C (slope_of (serial_ev M C left aux u)) (slope_of (par_ev M C bs left' aux' u')) /\
  speed_of (serial_ev M C left aux u) == speed_of (par_ev M C bs left' aux' u').
Proof.
  intros Ha Hu. unfold serial_ev, par_ev.
  assert (HC : capa_in_aux (unit_dt C)) by (intros k E; cbn [unit_dt c_capa] in E; rewrite HN in E; discriminate).
  assert (Su : same_cells (c_neq (unit_dt C)) (ncells (c_bc (unit_dt C))) (as_arr u) (as_arr u')).
  { intros m i Hm Hi. unfold as_arr. cbn [hd]. apply Hu; assumption. }
  pose proof (par_speed_serial (unit_dt C) bs Hg HF HD HC M (as_arr u) aux (as_arr u') aux' (fst (left aux u)) (snd (left aux u)) (left' aux' u') Su Ha HM HN) as H.
  change (ncells (c_bc (unit_dt C))) with (ncells (c_bc C)) in H.
  destruct (dq_hyperbolic _ _ _ _ _ _) as [d c|e| |], (par_dq _ _ _ _ _ _) as [d' c'|e'| |]; try contradiction.
  destruct H as [H1 H2]. cbn [slope_of speed_of]. split; [|symmetry; exact H2].
  intros m i Hm Hi. cbn [slope_of fst snd]. symmetry. apply H1; assumption.
Qed.
Lemma field_agree x y t u v : same_rest C x y -> agree C u v ->
  agree C (field src (serial_ev M C left) x t u) (field src (par_ev M C bs left') y t v).
Proof.
  intros Hx Hu. unfold field. apply agree_same. apply same_add; apply agree_same; [|apply Hsrc; assumption].
  apply ev_agree; [exact (proj1 Hx)|exact Hu].
Qed.

Theorem sharp_runs_agree I n a b c s so tend :
  let r := sharp_run (serial_ev M C left) (serial_ev M C left) src hook n a b c I before s so tend in
  let r' := sharp_run (par_ev M C bs left') (par_ev M C bs left') src hook n a b c I before s so tend in
  same_solver (r_solver r) (r_solver r') /\ agree C (ext (r_solver r)) (ext (r_solver r')) /\ agree_sol C (r_sol r) (r_sol r') /\
  Forall2 (agree_event C) (r_trace r) (r_trace r') /\ r_err r = r_err r'.
Proof.
  cbv zeta. unfold sharp_run.
  destruct (sharp_evolve_knear (Z * Z -> Q) (arr Q * X) (agree_sol C) (agree C)) with
    (slope1 := run_slope (serial_ev M C left) src) (slope2 := run_slope (par_ev M C bs left') src)
    (stages1 := run_stages (serial_ev M C left) src hook n a b c I) (stages2 := run_stages (par_ev M C bs left') src hook n a b c I)
    (before := before) (s := s) (s' := s) (a := so) (b := so) (te := tend) as (N & R & T & Er).
  - intros x y (_ & _ & H). exact H.
  - intros x y t (A & B & _). split; [exact A|split; [exact B|reflexivity]].
  - intros x y x' y' (A & _ & B) (_ & D & _). split; [exact A|split; [exact D|exact B]].
  - intros x y H. destruct (Hbef x y H) as [A B]. destruct H as (_ & _ & H). unfold with_data. split; [exact A|split; [exact B|exact H]].
  - intros d x y (A & B & D). unfold run_slope, rk_slope. cbn [fst snd]. rewrite <- D.
    split; [apply field_agree; assumption|]. split; [split; [exact A|split; [exact B|reflexivity]]|].
    destruct (ev_agree (fst (sx x)) (fst (sx y)) (sq x) (sq y) (proj1 B) A) as [_ E]. rewrite E. reflexivity.
  - intros d k k' x y Hk (A & B & D). unfold run_stages.
    assert (Ff : forall t u v, same (cell_of C) u v -> same (cell_of C) (field src (serial_ev M C left) (sx x) t u) (field src (par_ev M C bs left') (sx y) t v)).
    { intros t u v H. apply agree_same. apply field_agree; [exact B|]. apply agree_same. exact H. }
    assert (Fh : forall t u v, same (cell_of C) u v -> same (cell_of C) (hook t u) (hook t v)).
    { intros t u v H. apply agree_same. apply Hhook. apply agree_same. exact H. }
    split.
    + unfold with_data. split; [|split; [exact B|exact D]]. cbn [sq]. apply agree_same.
      eapply (same_stages (cell_of C)); [exact Ff|exact Fh|reflexivity|reflexivity|exact D|apply agree_same; exact Hk|apply agree_same; exact A].
    + unfold rk_stages. cbn [snd]. apply Qmult_comp; [reflexivity|]. apply qtop_eq. rewrite <- D.
      pose proof (same_points (cell_of C) _ _ hook Ff Fh d n a c I k k' (st x) (sq x) (sq y) (proj1 (agree_same C k k') Hk) (proj1 (agree_same C _ _) A)) as HP.
      induction HP as [|p p' l l' [_ Hp] HP IH]; cbn [map]; constructor; [|exact IH].
      apply ev_agree; [exact (proj1 B)|]. apply agree_same. exact Hp.
  - exists (cfl s), (st_cflmax s), (ext s). destruct s. split; [reflexivity|]. split; [reflexivity|]. split; [cbn; destruct st_cflmax; cbn; [reflexivity|exact Logic.I]|].
    intros m i _ _. reflexivity.
  - split; [intros m i _ _; reflexivity|]. split; [split; [intros m i _ _; reflexivity|reflexivity]|reflexivity].
  - split; [|split; [|split; [exact R|split; [exact T|exact Er]]]].
    + revert N. match goal with |- context [r_solver ?r] => generalize (r_solver r) end. intros u N.
      destruct N as (cc & mm & kk & -> & Hc & Hm & _). destruct u. unfold same_solver, set_ext, set_cfl, set_st_cflmax. cbn in *. auto 10.
    + exact (knear_ext _ _ _ _ N).
Qed.
End Runs.
