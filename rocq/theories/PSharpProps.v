(** Properties C150, C151: parallel runs of the SharpClaw solver. *)
From Verif Require Import Base TimeModel BCModel BCSpec LimiterModel LimiterProps Classic1DModel Classic1DSpec Classic1DProofs3 Classic1DProps
  SharpModel SemiModel SemiSpec ReconModel RunModel GeometrySpec ParallelModel ParallelSpec ParallelProps
  PSharpModel PSharpSpec PSharpProofs PSharpProofs2 PSharpProofs3 PSharpProofs4 PSharpProofs5.

(** ** C150: dq.  For the Python reconstruction (any lim_type and char_decomp) and for every local Fortran
    reconstruction, with any total fluctuation solver and capacity function, the processes together compute the serial
    dq, whatever each ghosted array held before; they fail exactly as the serial program does. *)
Theorem C150_dq :
  forall M C bs (q aux qbc0 auxbc0 auxbc0' : arr Q),
  (3 <= c_ng C)%nat -> fit_dim (c_ng C) (has_aux C) (Z.of_nat (c_neq C)) (c_bc C) -> decomposed (c_ng C) (cells C) bs ->
  capa_in_aux C -> local_method C M ->
  match dq_hyperbolic (M (cells C)) C q aux qbc0 auxbc0, par_dq M C bs q aux auxbc0' with
  | DQ d c, DQ d' c' => forall m i, (0 <= m < Z.of_nat (c_neq C))%Z -> (0 <= i < cells C)%Z -> d' m i = d m i
  | SemiNotImplemented, SemiNotImplemented => True
  | SemiUnassigned, SemiUnassigned => True
  | _, _ => False
  end.
Proof.
  intros M C bs q aux qbc0 auxbc0 auxbc0' Hg HF HD HC HM.
  exact (par_dq_serial C bs Hg HF HD HC M q aux q aux qbc0 auxbc0 auxbc0' (fun m i _ _ => eq_refl) (fun m i _ _ => eq_refl) HM).
Qed.
Print Assumptions C150_dq.

(** ** C150: Courant number.  For the Fortran kernel without a capacity function the reduced Courant number is the
    serial one. *)
Theorem C150_courant :
  forall M C bs (q aux qbc0 auxbc0 auxbc0' : arr Q),
  (3 <= c_ng C)%nat -> fit_dim (c_ng C) (has_aux C) (Z.of_nat (c_neq C)) (c_bc C) -> decomposed (c_ng C) (cells C) bs ->
  c_capa C = None -> local_fortran C M ->
  exists d c d' c', dq_hyperbolic (M (cells C)) C q aux qbc0 auxbc0 = DQ d c /\ par_dq M C bs q aux auxbc0' = DQ d' c' /\ c' == c.
Proof.
  intros M C bs q aux qbc0 auxbc0 auxbc0' Hg HF HD HN HM.
  assert (HC : capa_in_aux C) by (intros k E; rewrite HN in E; discriminate).
  pose proof (par_speed_serial C bs Hg HF HD HC M q aux q aux qbc0 auxbc0 auxbc0' (fun m i _ _ => eq_refl) (fun m i _ _ => eq_refl) HM HN) as H.
  fold (cells C) in H. destruct (dq_hyperbolic _ _ _ _ _ _) as [d c|e| |], (par_dq _ _ _ _ _ _) as [d' c'|e'| |]; try contradiction.
  exists d, c, d', c'. split; [reflexivity|]. split; [reflexivity|]. exact (proj2 H).
Qed.
Print Assumptions C150_courant.

(** ** C150: whole runs with Euler, SSP22, SSP33, SSP104 or any user-supplied Runge-Kutta method: the same attempted steps,
    step sizes, verdicts, times, cells, status and exceptions, with any source term, before_step and per-stage before_step
    that act on the cells. *)
Theorem C150_run :
  forall (X : Type) M C bs left left' (src : arr Q * X -> Q -> (Z * Z -> Q) -> Z * Z -> Q) hook n a b c I before
         (s : solver (Z * Z -> Q)) (so : sharp_sol X) tend,
  (3 <= c_ng C)%nat -> fit_dim (c_ng C) (has_aux C) (Z.of_nat (c_neq C)) (c_bc C) -> decomposed (c_ng C) (cells C) bs ->
  c_capa C = None -> local_fortran C M -> local_src C src -> local_hook C hook -> local_before C before ->
  let r := sharp_serial_run M C left src hook n a b c I before s so tend in
  let r' := sharp_par_run M C bs left' src hook n a b c I before s so tend in
  same_solver (r_solver r) (r_solver r') /\ agree C (ext (r_solver r)) (ext (r_solver r')) /\ agree_sol C (r_sol r) (r_sol r') /\
  Forall2 (agree_event C) (r_trace r) (r_trace r') /\ r_err r = r_err r'.
Proof.
  intros X M C bs left left' src hook n a b c I before s so tend Hg HF HD HN HM HS HH HB. unfold sharp_serial_run, sharp_par_run.
  assert (E : register_settings (M (ncells (c_bc C))) C = C) by (destruct HM as (r & tf & -> & _); reflexivity). rewrite E.
  exact (sharp_runs_agree C bs M Hg HF HD HM HN left left' src hook before HS HH HB I n a b c s so tend).
Qed.
Print Assumptions C150_run.

(** ** C150: the reconstructions of the Fortran code.  The WENO and TVD routines are local, whatever the work arrays held
    (per number of cells). *)
Theorem C150_local_reconstructions :
  forall eps rp (E : eigen) neq nw naux ng mthlim undef ql0 qr0 hh0, (3 <= ng)%Z ->
  local_recon neq naux ng (fun n => fortran_weno5 eps ng n (ql0 n) (qr0 n)) /\
  local_recon neq naux ng (fun n => wave_recon eps rp neq nw naux ng n (ql0 n) (qr0 n)) /\
  local_recon neq naux ng (fun n => char_recon eps E neq naux ng n (ql0 n) (qr0 n) (hh0 n)) /\
  local_recon neq naux ng (fun n => trans_recon eps E neq naux ng n (ql0 n) (qr0 n) (hh0 n)) /\
  local_recon neq naux ng (fun n => tvd_char_recon mthlim undef E neq naux ng n (ql0 n) (qr0 n)).
Proof.
  intros eps rp E neq nw naux ng mthlim undef ql0 qr0 hh0 Hg.
  split; [apply weno5_local; exact Hg|]. split; [apply wave_local; exact Hg|]. split; [apply char_local; exact Hg|].
  split; [apply trans_local; exact Hg|]. apply tvd_char_local. lia.
Qed.
Print Assumptions C150_local_reconstructions.

(** Six cells on two processes. *)
Definition six_set : settings :=
  mkSet 1 1 0 3 false 2 (fun _ => 4%Z) burgers 1 (1 # 4) None (mkDim 6 Periodic Periodic Periodic Periodic true true 0) (mkFuns Q None None None None).
Definition six_data (l : list Q) : arr Q := fun _ ix => nth (Z.to_nat (hd 0%Z ix)) l 0.
Definition six_boxes : list (Z * Z) := [(0, 3); (3, 6)]%Z.
Definition both (r r' : semiresult) (p : (Z -> Z -> Q) -> Q -> (Z -> Z -> Q) -> Q -> bool) : bool :=
  match r, r' with DQ d c, DQ d' c' => p d c d' c' | _, _ => false end.

Lemma six_fits : (3 <= c_ng six_set)%nat /\ fit_dim (c_ng six_set) (has_aux six_set) (Z.of_nat (c_neq six_set)) (c_bc six_set) /\
  decomposed (c_ng six_set) (cells six_set) six_boxes /\ capa_in_aux six_set.
Proof.
  split; [cbn; lia|]. split; [unfold fit_dim, standard, wide; cbn; intuition (auto; try discriminate; try lia)|].
  split; [split; [cbn; lia|repeat constructor; cbn; lia]|]. intros k E. discriminate.
Qed.

(** ** C150: the evaluations of a step.  A step after its first slope evaluates dq 0, 1, 2, 9 or (with s stages) s - 1 times; its
    result depends on dq at these points only, and its Courant number is the largest that occurs there. *)
Theorem C150_evaluations :
  forall X (ev ev' : arr Q -> cellfun -> semiresult) (src : arr Q * X -> Q -> cellfun -> cellfun) hook n a b c I d k so, 0 <= d ->
  exists points : list (Q * cellfun),
    length points = match I with SSP22 => 1 | SSP33 => 2 | SSP104 => 9 | RK => n - 1 | _ => 0 end%nat /\
    (Forall (fun p => ev' (fst (sx so)) (snd p) = ev (fst (sx so)) (snd p)) points ->
      fst (run_stages ev' src hook n a b c I d k so) = fst (run_stages ev src hook n a b c I d k so)) /\
    (let top := snd (run_stages ev src hook n a b c I d k so) in
     0 <= top /\ Forall (fun p => d * speed_of (ev (fst (sx so)) (snd p)) <= top) points /\
     (top == 0 \/ Exists (fun p => d * speed_of (ev (fst (sx so)) (snd p)) = top) points)).
Proof.
  intros X ev ev' src hook n a b c I d k so Hd.
  exists (stage_points (field src ev (sx so)) hook d n a c I k (st so) (sq so)).
  split.
  { destruct I; cbn [stage_points]; cbv zeta; try reflexivity. apply rk_points_length. }
  split.
  - intros H. unfold run_stages.
    transitivity (fst (rk_stages (field src ev') hook (fun _ _ => 0) n a b c I d k so)); [reflexivity|].
    transitivity (fst (rk_stages (field src ev) hook (fun _ _ => 0) n a b c I d k so)); [|reflexivity].
    f_equal. symmetry. eapply known_stages; [reflexivity|reflexivity|].
    refine (Forall_impl _ _ H). intros p E. unfold field. rewrite E. reflexivity.
  - cbv zeta. unfold run_stages, rk_stages. cbv zeta. cbn [snd].
    set (pts := stage_points _ _ _ _ _ _ _ _ _ _). set (sp := fun p : Q * cellfun => speed_of (ev (fst (sx so)) (snd p))).
    destruct (qtop_max (map sp pts)) as (A & B & D).
    split; [apply Qmult_le_0_compat; assumption|]. split.
    + apply Forall_forall. intros p Hp. rewrite Forall_forall in B. specialize (B (sp p) (in_map sp pts p Hp)).
      rewrite (Qmult_comm d (speed_of _)), (Qmult_comm d (qtop _)). apply Qmult_le_compat_r; [exact B|exact Hd].
    + destruct D as [D|D]; [left; rewrite D; apply Qmult_0_r|]. right. apply in_map_iff in D as (p & E & Hp). apply Exists_exists.
      exists p. split; [exact Hp|]. rewrite <- E. reflexivity.
Qed.
Print Assumptions C150_evaluations.

(** ** C151: every kernel and reconstruction.  The Python kernel computes the serial dq on any set of processes, without
    conditions on the capacity function beyond its being stored in aux.  Missing: its Courant number, and the wave-based
    TVD reconstruction of the Fortran kernel (refuted below). *)
Theorem C151_python_dq_partial :
  forall eps lim cd C bs (q aux qbc0 auxbc0 auxbc0' : arr Q),
  (3 <= c_ng C)%nat -> fit_dim (c_ng C) (has_aux C) (Z.of_nat (c_neq C)) (c_bc C) -> decomposed (c_ng C) (cells C) bs -> capa_in_aux C ->
  match dq_hyperbolic (PyRecon eps lim cd) C q aux qbc0 auxbc0, par_dq (fun _ => PyRecon eps lim cd) C bs q aux auxbc0' with
  | DQ d c, DQ d' c' => forall m i, (0 <= m < Z.of_nat (c_neq C))%Z -> (0 <= i < cells C)%Z -> d' m i = d m i
  | SemiNotImplemented, SemiNotImplemented => True
  | SemiUnassigned, SemiUnassigned => True
  | _, _ => False
  end.
Proof.
  intros eps lim cd C bs q aux qbc0 auxbc0 auxbc0' Hg HF HD HC.
  apply (C150_dq (fun _ => PyRecon eps lim cd)); try assumption. left. exists eps, lim, cd. reflexivity.
Qed.
Print Assumptions C151_python_dq_partial.

(** The Python kernel reports a Courant number that depends on the decomposition: it includes the interface one cell
    outside the grid, whose edge values are not reconstructed.  Here the serial number is smaller than 2/5 and the
    number reported by two processes is 1/2, with equal dq. *)
Theorem C151_python_courant_refuted :
  exists eps C bs (q : arr Q),
  (3 <= c_ng C)%nat /\ fit_dim (c_ng C) (has_aux C) (Z.of_nat (c_neq C)) (c_bc C) /\ decomposed (c_ng C) (cells C) bs /\
  capa_in_aux C /\ c_capa C = None /\
  both (dq_hyperbolic (PyRecon eps 2 0) C q q q q) (par_dq (fun _ => PyRecon eps 2 0) C bs q q q)
    (fun d c d' c' => qltb c (2 # 5) && qltb (2 # 5) c' && qeqb (d 0%Z 2%Z) (d' 0%Z 2%Z))%bool = true.
Proof.
  exists 1, six_set, six_boxes, (six_data [0; 4; 0; 0; 0; 0]). destruct six_fits as (A & B & D & E).
  repeat (split; [assumption || reflexivity|]). vm_compute. reflexivity.
Qed.
Print Assumptions C151_python_courant_refuted.

(** The wave-based TVD reconstruction is not local: it leaves the last interface of every grid without slopes (C86), so
    dq depends on the decomposition. *)
Theorem C151_tvd_wave_refuted :
  exists C bs (q : arr Q) mthlim undef ql0 qr0,
  (3 <= c_ng C)%nat /\ fit_dim (c_ng C) (has_aux C) (Z.of_nat (c_neq C)) (c_bc C) /\ decomposed (c_ng C) (cells C) bs /\
  capa_in_aux C /\ c_capa C = None /\
  let M n := FRecon (tvd_wave_recon mthlim undef (c_rp C) (c_neq C) (c_nw C) (c_naux C) (Z.of_nat (c_ng C)) n ql0 qr0) None in
  both (dq_hyperbolic (M (cells C)) C q q q q) (par_dq M C bs q q q) (fun d c d' c' => negb (qeqb (d 0%Z 2%Z) (d' 0%Z 2%Z))) = true.
Proof.
  exists six_set, six_boxes, (six_data [1; 2; 3; 5; 2; 1]), (fun _ => 4%Z), 0, (fun _ _ => 0), (fun _ _ => 0). destruct six_fits as (A & B & D & E).
  repeat (split; [assumption || reflexivity|]). vm_compute. reflexivity.
Qed.
Print Assumptions C151_tvd_wave_refuted.

(** A run of two processes: first-order edge values, Euler, a source term, a before_step and a hook; the steps adapt. *)
Definition six_first (n : Z) : method := FRecon (fun q _ => (q, q)) None.
Definition six_u (l : list Q) : Z * Z -> Q := fun mi => nth (Z.to_nat (snd mi)) l 0.
Definition six_src (x : arr Q * unit) (t : Q) (u : Z * Z -> Q) : Z * Z -> Q := fun mi => - (1 # 10) * u mi.
Definition six_before (so : sharp_sol unit) : (Z * Z -> Q) * (arr Q * unit) := (fun mi => Qred (sq so mi), sx so).
Definition six_hook (t : Q) (u : Z * Z -> Q) : Z * Z -> Q := fun mi => Qred (u mi).
Definition six_solver : solver (Z * Z -> Q) :=
  mkSolver (1 # 2) None 1 true (1 # 2) (4 # 5) 0 100 None None None 0 true (fun _ => 0).
Example C150_example :
  local_fortran six_set six_first /\ local_src six_set six_src /\ local_hook six_set six_hook /\ local_before six_set six_before /\
  let go := sharp_par_run six_first six_set six_boxes (fun _ _ => zero_arr) six_src six_hook 0 (fun _ _ => 0) (fun _ => 0) (fun _ => 0) Euler six_before
              six_solver (mkSol (six_u [1; 3; 2; 0; 1; 1]) (zero_arr, tt) 0) (Some (1 # 3)) in
  map (@ev_accepted _ _) (r_trace go) = [false; true; true] /\ r_err go = None /\ Qred (sq (r_sol go) (0, 3)%Z) <> 0.
Proof.
  split. { exists (fun _ q _ => (q, q)), None. split; [reflexivity|]. apply first_order_local. cbn. lia. }
  split. { intros x y t u v _ H m i Hm Hi. unfold six_src. rewrite (H m i Hm Hi). reflexivity. }
  split. { intros t u v H m i Hm Hi. unfold six_hook. rewrite (H m i Hm Hi). reflexivity. }
  split. { intros p r (H & H' & _). split; [|exact H']. intros m i Hm Hi. unfold six_before. cbn [fst]. rewrite (H m i Hm Hi). reflexivity. }
  vm_compute. repeat split; discriminate.
Qed.

(** A process that cannot fill its ghost cells stops the computation: no dq is returned (as in the serial case, C14). *)
Theorem C150_failure :
  forall M C bs q aux auxbc0 b e, In b bs ->
  par_apply_bcs Qopp (c_ng C) (Nat.ltb 0 (c_naux C)) (c_funs C) (Z.of_nat (c_neq C)) [c_bc C] [b] q aux auxbc0 = Raised e ->
  forall d c, par_dq M C bs q aux auxbc0 <> DQ d c.
Proof.
  intros M C bs q aux auxbc0 b e Hb He. unfold par_dq. induction bs as [|b' bs IH]; [destruct Hb|].
  intros d c. cbn [map dq_collect]. destruct Hb as [-> | Hb].
  - assert (local_dq M C q aux auxbc0 b = SemiBC e) as -> by (unfold local_dq; rewrite He; reflexivity). discriminate.
  - specialize (IH Hb). destruct (local_dq M C q aux auxbc0 b'); try discriminate.
    destruct (dq_collect _); try discriminate. exfalso. eapply IH. reflexivity.
Qed.
Print Assumptions C150_failure.
(** For instance when no lower boundary condition was given: the first process, and only it, fails. *)
Definition no_lower : settings :=
  mkSet 1 1 0 3 false 2 (fun _ => 0%Z) (c_rp six_set) 1 1 None (mkDim 6 Unset Extrap Unset Extrap true true 0) (mkFuns Q None None None None).
Example C150_failure_example :
  match map (local_dq six_first no_lower zero_arr zero_arr zero_arr) six_boxes with
  | [SemiBC ENotSpecified; DQ _ _] => True
  | _ => False
  end.
Proof. vm_compute. exact I. Qed.
