(** C163: cell width and capacity enter only through their product. *)
From Verif Require Import Base BCModel BCSpec LimiterModel Classic1DModel Classic1DSpec Classic1DProps TimeModel ControllerModel RunModel
  SimSpec SymSpec SymProofs SimProofs SymProofs4 SymProps CapaSpec CapaProofs.

(** Two programs that differ in the width of the cells and in the capacity function only, such that width times
    capacity is the same in every cell: their runs are the same in every step, frame, time, Courant number and
    error. *)
Theorem C163_width_times_capacity {E E2 P P2 F F2} pow undef (RE : E -> E2 -> Prop) (RP : P -> P2 -> Prop) (RF : F -> F2 -> Prop)
    (p : program E) (p2 : program E2) (c : controller (arr Q) (arr Q) P F) (c2 : controller (arr Q) (arr Q) P2 F2) w w2 :
  let C := p_settings p in let C2 := p_settings p2 in let RQ := agree_q C in let RX := agree_aux C C2 in
  (2 <= c_ng C)%nat -> fit_dim (c_ng C) (Nat.ltb 0 (c_naux C)) (Z.of_nat (c_neq C)) (c_bc C) ->
  plain_limiters (p_lang p) C -> regular C -> 0 < c_dx C -> capa_in_aux C -> capa_in_aux C2 ->
  same_but_width RE p p2 -> rel_controller RQ RX RP RF 1 c c2 -> rel_world RQ RX RE RP RF 1 w w2 ->
  rel_world RQ RX RE RP RF 1 (fst (run_of pow undef p c w)) (fst (run_of pow undef p2 c2 w2)) /\
  snd (run_of pow undef p2 c2 w2) = snd (run_of pow undef p c w).
Proof. intros C C2 RQ RX Hng HF HL HR Hdx H1 H2 HS. apply width_run; assumption. Qed.

Lemma times_same (l : list Q) : Forall2 (fun a b => b == 1 * a) l l.
Proof. induction l; constructor; [ring|assumption]. Qed.
(** In particular a constant capacity kappa is the same as cells wider by the factor kappa. *)
Theorem C163_constant_capacity {E P F} pow undef L (C : settings) (kappa : Q) (k : Z) (c : controller (arr Q) (arr Q) P F)
    (w : world (arr Q) (arr Q) E P F) :
  let C2 := with_width C (kappa * c_dx C) None in
  c_capa C = Some k -> (0 <= k < Z.of_nat (c_naux C))%Z -> 0 < kappa -> 0 < c_dx C ->
  (forall i, (0 <= i < cells C)%Z -> sx (w_sol w) k [i] == kappa) ->
  (2 <= c_ng C)%nat -> fit_dim (c_ng C) (Nat.ltb 0 (c_naux C)) (Z.of_nat (c_neq C)) (c_bc C) ->
  plain_limiters L C -> regular C -> c_p c = None -> c_F c = None -> w_frames w = [] -> w_out w = [] ->
  let a := fst (run_of pow undef (plain L C) c w) in let b := fst (run_of pow undef (plain L C2) c w) in
  snd (run_of pow undef (plain L C2) c w) = snd (run_of pow undef (plain L C) c w) /\
  agree_q C (sq (w_sol a)) (sq (w_sol b)) /\ st (w_sol b) == st (w_sol a) /\
  Forall2 (fun x y => agree_q C (sq x) (sq y) /\ st y == st x) (w_frames a) (w_frames b) /\
  cfl (w_solver b) == cfl (w_solver a) /\ st_numsteps (w_solver b) = st_numsteps (w_solver a).
Proof.
  intros C2 Hk Hin Hkap Hdx HA Hng HF HL HR Hp HFn Hfr Hout a b.
  assert (CAP : capa_in_aux C) by (intros k' E'; rewrite Hk in E'; inversion E'; subst; exact Hin).
  assert (CAP2 : capa_in_aux C2) by (intros k' E'; discriminate E').
  assert (POS : 0 < kappa * c_dx C) by (apply Qmul_pos; assumption).
  assert (X : agree_aux C C2 (sx (w_sol w)) (sx (w_sol w))).
  { split; [intros m i _ _; reflexivity|]. intros i Hi. unfold content. rewrite Hk. cbn [C2 with_width c_capa c_dx]. rewrite (HA i Hi).
    split; [rewrite Qmult_comm; exact POS|ring]. }
  destruct (C163_width_times_capacity pow undef eq eq eq (plain L C) (plain L C2) c c w w Hng HF HL HR Hdx CAP CAP2) as (R & ER).
  - constructor; cbn [plain p_lang p_settings p_split p_source p_before p_setup p_valid]; try reflexivity.
    + exists (kappa * c_dx C), None. split; [reflexivity|exact POS].
    + intros so so2 (A & B & _). split; assumption.
    + intros s s2 K. exact K.
  - constructor; try reflexivity; [ring|apply times_same|rewrite Hp; exact I|rewrite HFn; exact I].
  - constructor; try reflexivity; [apply rel_solver_refl| |rewrite Hfr; constructor|rewrite Hout; constructor].
    split; [intros m i _ _; reflexivity|]. split; [exact X|ring].
  - destruct R as [R1 _ (R2 & _ & R3) _ R4 _ _]. fold a in R1, R2, R3, R4. fold b in R1, R2, R3, R4.
    cbn [plain p_settings] in *. split; [exact ER|]. split; [exact R2|]. split; [rewrite R3; ring|]. split.
    { clear -R4. induction R4 as [|x y l l' (H1 & _ & H3) _ IH]; constructor; [|exact IH]. split; [exact H1|rewrite H3; ring]. }
    destruct R1. split; assumption.
Qed.

(** Burgers' equation on six cells with capacity 5/2 in one and no capacity in the other *)
Definition wdim : dimbc := mkDim 6 Extrap Extrap Extrap Extrap true true 0.
Definition wset : settings :=
  mkSet 1 1 1 2 false 2 (fun _ => 4%Z) burgers (1 # 2) (1 # 4) (Some 0%Z) wdim (mkFuns Q None None None None).
Definition wworld : world (arr Q) (arr Q) unit unit unit :=
  mkWorld (bsolver (1 # 10) true) true (mkSol (bdata hump) (fun _ _ => 5 # 2) 0) 0 [] false [].
Lemma wset_regular : regular wset.
Proof.
  apply (solver_of_ext (mkChange 1 1 (fun _ => 1 * 1) (fun _ => 1) false 0)); try reflexivity.
  intros ul ur al ar vl vr bl br HU HV _ _.
  assert (I0 : image 0 (fun _ => 1) [] []) by (split; [reflexivity|split; [reflexivity|intros m Hm; cbn in Hm; lia]]).
  exact (burgers_image false 1 ltac:(reflexivity) 1 0%Z (fun _ => 1) ul ur [] [] vl vr [] [] HU HV I0 I0).
Qed.
Example C163_case : let C := wset in
  c_capa C = Some 0%Z /\ (0 <= 0 < Z.of_nat (c_naux C))%Z /\ 0 < c_dx C /\ (forall i, (0 <= i < cells C)%Z -> sx (w_sol wworld) 0%Z [i] == 5 # 2) /\
  (2 <= c_ng C)%nat /\ fit_dim (c_ng C) (Nat.ltb 0 (c_naux C)) (Z.of_nat (c_neq C)) (c_bc C) /\ plain_limiters Fortran C /\ regular C /\
  let a := fst (run_of nopow noundef (plain Fortran C) (bcontroller (1 # 10)) wworld) in
  length (w_frames a) = 3%nat /\ st_numsteps (w_solver a) = 2%Z /\ Qeq_bool (sq (w_sol a) 0%Z [2%Z]) (hump 2) = false.
Proof.
  cbv zeta. split; [reflexivity|]. split; [cbn; lia|]. split; [reflexivity|]. split; [intros; reflexivity|]. split; [cbn; lia|]. split.
  { unfold fit_dim, standard, wide. cbn. intuition (auto; try discriminate; try lia). }
  split; [apply limits4; reflexivity|]. split; [exact wset_regular|]. split; [vm_compute; reflexivity|]. split; [vm_compute; reflexivity|]. vm_compute; reflexivity.
Qed.
Print Assumptions C163_width_times_capacity.
Print Assumptions C163_constant_capacity.
