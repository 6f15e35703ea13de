(** Property C45: parallel runs. *)
From Verif Require Import Base TimeModel BCModel BCSpec BCProofs LimiterModel LimiterSpec LimiterProofs LimiterProps
  Classic1DModel Classic1DSpec Classic1DProofs Classic1DProofs3 Classic1DProps
  GeometrySpec ParallelModel ParallelSpec ParallelProofs ParallelProofs2 ParallelProofs3 ParallelProofs4.

(** ** C45: ghost cells.  In any number of dimensions, for any decomposition into boxes of at least num_ghost cells
    and any combination of extrapolation, periodic and wall conditions, the ghosted array of a process is the part of
    the serial ghosted array that belongs to it. *)
Theorem C45_ghost_cells :
  forall (V : Type) (opp : V -> V) ng has_aux F neq Ds bs (q aux qbc0 auxbc0 auxbc0' : arr V),
  (1 <= ng)%nat -> Forall (fit_dim ng has_aux neq) Ds -> Forall2 (fit_box ng has_aux neq) Ds bs ->
  exists qbc auxbc qbc' auxbc',
  apply_bcs V opp ng has_aux F neq Ds q aux qbc0 auxbc0 = Ok (qbc, auxbc) /\
  par_apply_bcs opp ng has_aux F neq Ds bs q aux auxbc0' = Ok (qbc', auxbc') /\
  forall c ix, Forall2 (fun b i => (0 <= i < snd b - fst b + 2 * Z.of_nat ng)%Z) bs ix ->
  let global := map (fun p => (fst (fst p) + snd p)%Z) (combine bs ix) in
  qbc' c ix = qbc c global /\ (has_aux = true -> auxbc' c ix = auxbc c global).
Proof.
  intros V opp ng has_aux F neq Ds bs q aux qbc0 auxbc0 auxbc0' Hg HD HB.
  destruct (apply_bcs_at V opp ng has_aux F neq Ds q aux qbc0 auxbc0 Hg HD) as (qb & xb & E & A & B & _).
  destruct (par_bcs_at V opp ng has_aux F neq Ds bs q aux auxbc0' Hg HB) as (qb' & xb' & E' & A' & B' & _).
  exists qb, xb, qb', xb'. split; [exact E|]. split; [exact E'|]. intros c ix HI. cbv zeta.
  set (g := Z.of_nat ng). set (pos := shift (- g) ix).
  assert (P1 : in_box ng (local_bcs Ds bs) pos).
  { unfold pos. clear -HB HI. revert ix HI. induction HB as [|D b Ds bs HD HB IH]; intros ix HI; inversion HI as [|? i ? ix' Hi HI']; subst; [exact I|].
    cbn [local_bcs combine map shift in_box local_bc ncells fst snd]. split; [unfold g; lia|]. apply IH. exact HI'. }
  assert (P2 : in_box ng Ds (global_pos bs pos)).
  { unfold pos. clear -HB HI. revert ix HI. induction HB as [|D b Ds bs HD HB IH]; intros ix HI; inversion HI as [|? i ? ix' Hi HI']; subst; [exact I|].
    destruct HD as (_ & _ & _ & _ & HD & _).
    cbn [shift map global_pos combine in_box fst snd]. split; [unfold g; lia|]. apply IH. exact HI'. }
  assert (P3 : shift g (global_pos bs pos) = map (fun p => (fst (fst p) + snd p)%Z) (combine bs ix)).
  { unfold pos. clear -HI. induction HI as [|b i bs ix Hi HI IH]; [reflexivity|]. cbn [shift map global_pos combine fst snd]. f_equal; [lia|exact IH]. }
  assert (P4 : shift g pos = ix) by apply shift_fwd.
  split.
  - rewrite <- P4 at 1; fold g in A'; rewrite (A' c pos P1), <- P3. symmetry. apply A. exact P2.
  - intros Ha. rewrite <- P4 at 1; fold g in B'; rewrite (B' Ha c pos P1), <- P3. symmetry. apply B; [exact Ha|exact P2].
Qed.
Print Assumptions C45_ghost_cells.

(** ** C45: one step.  For the 1D classic solver in either language (with limiters that work cell by cell) the new
    values of the cells are those of the serial step, whichever processes hold them, and the reduced Courant number is
    the serial one; the parallel step stops exactly when the serial one does. *)
Theorem C45_step :
  forall pow undef L C bs (q aux qbc0 auxbc0 auxbc0' : arr Q),
  (2 <= c_ng C)%nat -> fit_dim (c_ng C) (has_aux C) (Z.of_nat (c_neq C)) (c_bc C) -> decomposed (c_ng C) (cells C) bs ->
  local_limiters_only pow L C -> capa_in_aux C ->
  match step_hyperbolic pow undef L C q aux qbc0 auxbc0, par_step pow undef L C bs q aux auxbc0' with
  | Stepped q1 c1, Stepped q2 c2 =>
      (forall m i, (0 <= m < Z.of_nat (c_neq C))%Z -> (0 <= i < cells C)%Z -> q2 m i = q1 m i) /\ c2 == c1
  | Stopped, Stopped => True
  | _, _ => False
  end.
Proof.
  intros pow undef L C bs q aux qbc0 auxbc0 auxbc0' Hg HF HD HL HC.
  exact (par_step_serial pow undef C L bs Hg HF HD HL HC q aux q aux qbc0 auxbc0 auxbc0' (fun m i _ _ => eq_refl) (fun m i _ _ => eq_refl)).
Qed.
Print Assumptions C45_step.

(** ** C45: whole runs.  Same attempted steps, step sizes, verdicts, times, cells, status and exceptions, with any
    source term, splitting and before_step that act on the cells. *)
Theorem C45_run :
  forall (X E : Type) pow undef L C bs left left' source source_split before (s : solver E) (so : run_sol X) tend,
  (2 <= c_ng C)%nat -> fit_dim (c_ng C) (has_aux C) (Z.of_nat (c_neq C)) (c_bc C) -> decomposed (c_ng C) (cells C) bs ->
  local_limiters_only pow L C -> capa_in_aux C ->
  respects_cells C before -> (forall f, source = Some f -> forall d, respects_cells C (f d)) ->
  let r := serial_run pow undef L C left source source_split before s so tend in
  let r' := par_run pow undef L C bs left' source source_split before s so tend in
  same_solver (r_solver r) (r_solver r') /\ same_solution C (r_sol r) (r_sol r') /\
  Forall2 (same_event C) (r_trace r) (r_trace r') /\ r_err r = r_err r'.
Proof.
  intros X E pow undef L C bs left left' source source_split before s so tend Hg HF HD HL HC HB HS. cbv zeta.
  assert (CB : forall f, respects_cells C f -> forall a b : run_sol X, same_solution C a b ->
     same_solution C (with_data a (callback f a)) (with_data b (callback f b))).
  { intros f Hf a b (A1 & A2 & A3 & A4). unfold same_solution, with_data, callback. cbn [sq sx st].
    destruct (sq a) as [q|], (sq b) as [q'|]; try contradiction; cbn [fst snd]; [|auto].
    destruct (Hf (st a) q q' (sx a) (sx b) A1 A2 A3) as (B1 & B2 & B3). rewrite <- A4. auto. }
  assert (R0 : forall a : run_sol X, same_solution C a a).
  { intros a. unfold same_solution, same_cells. destruct (sq a); auto. }
  destruct (classic_evolve_near (option (arr Q)) (arr Q * X) E (same_solution C)) with
    (source := option_map (fun f dt => callback (f dt)) source) (source_split := source_split) (before := callback before)
    (hyper1 := @hyper_of X (fun dt q aux => step_hyperbolic pow undef L (with_dt C dt) q aux (fst (left dt q aux)) (snd (left dt q aux))))
    (hyper2 := @hyper_of X (fun dt q aux => par_step pow undef L (with_dt C dt) bs q aux (left' dt q aux)))
    (s := s) (s' := s) (a := so) (b := so) (te := tend) as (N & R & T & Er).
  - intros a b (_ & _ & _ & H). exact H.
  - intros a b t (H1 & H2 & H3 & H4). unfold same_solution. cbn [sq sx st]. auto.
  - intros a b a' b' (H1 & H2 & H3 & H4) (K1 & K2 & K3 & K4). unfold same_solution. cbn [sq sx st]. auto.
  - intros f Ef d a b H. destruct source as [f0|]; [|discriminate]. injection Ef as <-. apply CB; [|exact H]. apply (HS f0 eq_refl).
  - intros a b H. apply CB; assumption.
  - intros d a b (A1 & A2 & A3 & A4). unfold hyper_of. destruct (sq a) as [q|] eqn:Ea, (sq b) as [q'|] eqn:Eb; try contradiction.
    + pose proof (par_step_serial pow undef (with_dt C d) L bs Hg HF HD HL HC q (fst (sx a)) q' (fst (sx b)) (fst (left d q (fst (sx a)))) (snd (left d q (fst (sx a)))) (left' d q' (fst (sx b))) A1 A2) as P.
      destruct (step_hyperbolic _ _ _ _ _ _ _ _) as [q1 c1|e|], (par_step _ _ _ _ _ _ _ _) as [q2 c2|e'|]; try contradiction; cbn [fst snd].
      * destruct P as [P1 P2]. split; [|symmetry; exact P2]. unfold same_solution, with_data. cbn [sq sx st fst snd]. split; [|auto].
        intros m i Hm Hi. unfold of_line. cbn [hd]. symmetry. apply P1; assumption.
      * split; [|reflexivity]. unfold same_solution, with_data. cbn [sq sx st fst snd]. auto.
    + cbn [fst snd]. split; [|reflexivity]. unfold same_solution, with_data. cbn [sq sx st fst snd]. auto.
  - exists (cfl s), (st_cflmax s). destruct s. split; [reflexivity|]. split; [reflexivity|]. cbn. destruct st_cflmax; cbn; [reflexivity|exact I].
  - apply R0.
  - unfold serial_run, par_run. split; [|split; [exact R|split; [exact T|exact Er]]].
    revert N. generalize (r_solver (classic_evolve (option_map (fun f dt => callback (f dt)) source) (@hyper_of X (fun dt q aux => step_hyperbolic pow undef L (with_dt C dt) q aux (fst (left dt q aux)) (snd (left dt q aux)))) source_split (callback before) s so tend)).
    intros u (c & m & -> & Hc & Hm). destruct u. unfold same_solver, set_cfl, set_st_cflmax. cbn in *. auto 10.
Qed.
Print Assumptions C45_run.

(** Four cells on two processes. *)
Definition par_bc (t : bctype) : dimbc := mkDim 4 t t t t true true 0.
Definition par_set (order lim : Z) (t : bctype) : settings :=
  mkSet 1 1 1 2 false order (fun _ => lim) burgers 1 (1 # 4) (Some 0%Z) (par_bc t) (mkFuns Q None None None None).
Definition par_data : arr Q := fun _ ix => match ix with [0%Z] => 1 | [1%Z] => 3 | [2%Z] => - (1) | [3%Z] => 5 # 2 | _ => 0 end.
Definition par_capa : arr Q := fun _ ix => match ix with [2%Z] => 1 # 2 | _ => 1 end.
Definition two_boxes : list (Z * Z) := [(0, 2); (2, 4)]%Z.

Example C45_example :
  (forall t, standard t -> fit_dim 2 true 1 (par_bc t)) /\ decomposed 2 4 two_boxes /\
  (forall L t, local_limiters_only nopow L (par_set 2 4 t)) /\ (forall t, capa_in_aux (par_set 2 4 t)) /\
  forallb (fun L => forallb (fun t =>
    passes (par_step nopow noundef L (par_set 2 4 t) two_boxes par_data par_capa zero_arr)
      (fun p c => passes (step_hyperbolic nopow noundef L (par_set 2 4 t) par_data par_capa zero_arr zero_arr)
         (fun q c' => negb (qeqb (p 0%Z 1%Z) 3) && qeqb (p 0%Z 1%Z) (q 0%Z 1%Z) && qeqb c c' && qltb 0 c)%bool))
    [Extrap; Periodic; Wall]) [Python; Fortran] = true.
Proof.
  split; [|split; [|split; [|split]]].
  - intros t Ht. unfold fit_dim, wide. cbn. repeat split; auto; try lia; try discriminate.
  - split; [cbn; lia|]. repeat constructor; cbn; lia.
  - intros L t _ mw f _ Hf. destruct (C26_cell_by_cell_partial nopow 4) as (f' & Hf' & Hc); [cbn; tauto|].
    cbn [par_set c_mthlim] in Hf. rewrite Hf in Hf'. injection Hf' as <-. exact Hc.
  - intros t k Hk. injection Hk as <-. cbn. lia.
  - vm_compute. reflexivity.
Qed.

(** A limiter that looks at the whole array (C26) makes the result depend on the decomposition: eight cells on four
    processes, advection with speed 1. *)
Definition far_set (n : Z) : settings :=
  mkSet 1 1 0 2 false 2 (fun _ => n) (advection 1) 1 (1 # 4) None
    (mkDim 8 Periodic Periodic Periodic Periodic true true 0) (mkFuns Q None None None None).
Definition far_data : arr Q := fun _ ix => nth (Z.to_nat (hd 0%Z ix)) [0; 1; 3; 4; 6; 8; 9; 4] 0.
Definition four_boxes : list (Z * Z) := [(0, 2); (2, 4); (4, 6); (6, 8)]%Z.
Theorem C45_any_limiter_refuted :
  forall n, In n [18; 21; 22; 23]%Z ->
  exists C bs (q : arr Q), c_mthlim C 0%Z = n /\ (2 <= c_ng C)%nat /\
  fit_dim (c_ng C) (has_aux C) (Z.of_nat (c_neq C)) (c_bc C) /\ decomposed (c_ng C) (cells C) bs /\
  passes (par_step nopow noundef Python C bs q q q) (fun p c =>
    passes (step_hyperbolic nopow noundef Python C q q q q) (fun p' c' => negb (qeqb (p 0%Z 2%Z) (p' 0%Z 2%Z)))) = true.
Proof.
  intros n Hn. exists (far_set n), four_boxes, far_data. split; [reflexivity|]. split; [cbn; lia|]. split; [|split].
  - unfold fit_dim, wide, standard. cbn. repeat split; auto; try lia; try discriminate.
  - split; [cbn; lia|]. repeat constructor; cbn; lia.
  - destruct Hn as [<-|[<-|[<-|[<-|[]]]]]; vm_compute; reflexivity.
Qed.
Print Assumptions C45_any_limiter_refuted.
