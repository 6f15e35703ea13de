(** Properties of whole runs: moved, mirrored and rescaled problems (C139-C142). *)
From Verif Require Import Base BCModel BCSpec LimiterModel Classic1DModel Classic1DSpec Classic1DProps TimeModel ControllerModel RunModel
  SimSpec SymSpec SymProofs SimProofs SymProofs4.

Lemma times_one o : times 1 o o.
Proof. destruct o; cbn; [ring|exact I]. Qed.
Lemma rel_solver_refl {E} (s : solver E) : rel_solver eq 1 s s.
Proof. constructor; try reflexivity; try (ring || apply times_one). Qed.
(** A program without callbacks *)
Definition plain {E} (L : lang) (C : settings) : program E :=
  mkProgram L C None 1 (fun so => (sq so, sx so)) (fun _ _ => (zero_arr, zero_arr)) (fun s => s) (fun _ _ => true).
Lemma same_plain g {E E2} (RE : E -> E2 -> Prop) L C C2 : corresponding g C C2 -> same_program g RE (plain L C) (plain L C2).
Proof.
  intro H. constructor; cbn [plain p_lang p_settings p_split p_source p_before p_setup p_valid]; try reflexivity; try assumption.
  - intros so so2 (A & B & _). split; assumption.
  - intros s s2 K. exact K.
Qed.

(** ** C139 Moving the origin of a periodic domain moves the answer *)
Theorem C139_moved_origin {E E2 P P2 F F2} pow undef (k : Z) (RE : E -> E2 -> Prop) (RP : P -> P2 -> Prop) (RF : F -> F2 -> Prop)
    (p : program E) (p2 : program E2) (c : controller (arr Q) (arr Q) P F) (c2 : controller (arr Q) (arr Q) P2 F2) w w2 :
  let C := p_settings p in let RQ := same_q (moved k) C in let RX := same_aux (moved k) C in
  periodic_bc (c_bc C) -> (2 <= c_ng C)%nat -> (Z.of_nat (c_ng C) <= cells C)%Z -> plain_limiters (p_lang p) C -> capa_in_aux C ->
  same_program (moved k) RE p p2 -> rel_controller RQ RX RP RF 1 c c2 -> rel_world RQ RX RE RP RF 1 w w2 ->
  rel_world RQ RX RE RP RF 1 (fst (run_of pow undef p c w)) (fst (run_of pow undef p2 c2 w2)) /\
  snd (run_of pow undef p2 c2 w2) = snd (run_of pow undef p c w).
Proof.
  intros C RQ RX HP Hng Hn HL Hc HS HC HW.
  apply (program_run pow undef (moved k) RE RP RF p p2); [|exact HS|left; reflexivity|exact HC|exact HW].
  constructor; fold C; try assumption; try discriminate.
  - split; [reflexivity|]. split; [reflexivity|]. split; [left; exists 1; split; [reflexivity|intros; reflexivity]|intros; reflexivity].
  - destruct HP as (A1 & A2 & A3 & A4 & A5 & A6). unfold fit_dim, standard, wide. rewrite A1, A2, A3, A4. unfold cells in Hn.
    intuition (auto; try discriminate; try lia).
Qed.
(** What [same_q (moved k)] says: cell i of one is cell i + k, counted round the domain, of the other. *)
Lemma moved_cells k C a b : same_q (moved k) C a b <->
  forall m i, (0 <= m < Z.of_nat (c_neq C))%Z -> (0 <= i < cells C)%Z -> b m [((i + k) mod cells C)%Z] == a m [i].
Proof.
  split; intros H m i Hm Hi; specialize (H m i Hm Hi); unfold place in *; cbn [moved g_mirror g_move g_q] in *; rewrite Qmult_1_l in *; exact H.
Qed.
(** Riemann solvers that are functions of the values of their arguments *)
Definition regular (C : settings) : Prop := same_solver_of (moved 0) (c_fwave C) (c_neq C) (c_nw C) (c_naux C) (c_rp C) (c_rp C).
Theorem C139_same_program {E P F} pow undef (k : Z) L C (c : controller (arr Q) (arr Q) P F) (w w2 : world (arr Q) (arr Q) E P F) :
  let RQ := same_q (moved k) C in let RX := same_aux (moved k) C in
  periodic_bc (c_bc C) -> (2 <= c_ng C)%nat -> (Z.of_nat (c_ng C) <= cells C)%Z -> plain_limiters L C -> capa_in_aux C -> regular C ->
  c_p c = None -> c_F c = None -> rel_world RQ RX eq eq eq 1 w w2 ->
  rel_world RQ RX eq eq eq 1 (fst (run_of pow undef (plain L C) c w)) (fst (run_of pow undef (plain L C) c w2)) /\
  snd (run_of pow undef (plain L C) c w2) = snd (run_of pow undef (plain L C) c w).
Proof.
  intros RQ RX HP Hng Hn HL Hc HR Hcp HcF HW.
  apply (C139_moved_origin pow undef k eq eq eq (plain L C) (plain L C) c c w w2); cbn [plain p_settings p_lang]; try assumption.
  - apply same_plain. constructor; try reflexivity; [right; exact HP|cbn; ring|exact HR].
  - constructor; try reflexivity; [ring| |rewrite Hcp; exact I|rewrite HcF; exact I].
    induction (c_times c); constructor; [ring|assumption].
Qed.

(** A Burgers problem on six cells *)
Definition bdim (t : bctype) : dimbc := mkDim 6 t t t t true true 0.
Definition bset (t : bctype) (rp : rpsolver) : settings :=
  mkSet 1 1 0 2 false 2 (fun _ => 4%Z) rp (1 # 2) (1 # 4) None (bdim t) (mkFuns Q None None None None).
Definition bsolver (d : Q) (var : bool) : solver unit := mkSolver d None 100 var (9 # 10) 1 (9 # 10) 1000 None None None 0 true tt.
Definition bdata (f : Z -> Q) : arr Q := fun _ ix => match ix with [i] => f i | _ => 0 end.
Definition bworld (s : solver unit) (f : Z -> Q) : world (arr Q) (arr Q) unit unit unit :=
  mkWorld s true (mkSol (bdata f) zero_arr 0) 0 [] false [].
Definition bcontroller (te : Q) : controller (arr Q) (arr Q) unit unit :=
  mkController 1 te 2 [] 1 true false false true true None None.
Lemma hd_nth (l : list Q) : hd 0 l = nth 0 l 0.
Proof. destruct l; reflexivity. Qed.
Lemma burgers_image sg mu : 0 < mu -> forall T mv (fa : Z -> Q),
  same_solver_of (mkChange T mu (fun _ => (if sg : bool then -(1) else 1) * mu) fa sg mv) false 1 1 0 burgers burgers.
Proof.
  intros Hmu T mv fa ul ur al ar vl vr bl br (_ & _ & A) (_ & _ & B) _ _.
  specialize (A 0%Z ltac:(cbn; lia)). specialize (B 0%Z ltac:(cbn; lia)). cbn [Z.to_nat g_q g_mirror] in A, B. rewrite <- !hd_nth in A, B.
  unfold burgers, same_answers. cbn [g_mirror g_speed g_q]. set (l := hd 0 ul) in *. set (r := hd 0 ur) in *.
  set (l2 := hd 0 vl) in *. set (r2 := hd 0 vr) in *.
  set (a := (l + r) / 2). assert (PM : forall x y, x == mu * y -> pymin x 0 == mu * pymin y 0 /\ pymax x 0 == mu * pymax y 0).
  { intros x y E. rewrite E. split; [rewrite <- (pymin_scale mu Hmu y 0)|rewrite <- (pymax_scale mu Hmu y 0)]; rewrite Qmult_0_r; reflexivity. }
  assert (OP : forall y, pymin (- y) 0 == - pymax y 0 /\ pymax (- y) 0 == - pymin y 0).
  { intro y. unfold pymin, pymax. destruct (qltb 0 (- y)) eqn:E1, (qltb y 0) eqn:E2, (qltb (- y) 0) eqn:E3, (qltb 0 y) eqn:E4; qprop; split; lra. }
  destruct sg; cbn [o_s o_am o_ap o_wave].
  - assert (S : (r2 + l2) / 2 == mu * - a) by (rewrite A, B; unfold a; field). destruct (PM _ _ S) as [P1 P2]. destruct (OP a) as [O1 O2].
    split; [intros p _; rewrite S; ring|]. intros m _. rewrite P1, P2, O1, O2, A, B. split; [ring|]. split; [ring|]. intros p _. rewrite A, B. ring.
  - assert (S : (l2 + r2) / 2 == mu * a) by (rewrite A, B; unfold a; field). destruct (PM _ _ S) as [P1 P2].
    split; [intros p _; rewrite S; ring|]. intros m _. rewrite P1, P2, A, B. split; [ring|]. split; [ring|]. intros p _. rewrite A, B. ring.
Qed.
(** [burgers_image] with a factor that is written differently *)
Lemma solver_of_ext g g2 fw neq nw naux rp rp2 : g_speed g2 == g_speed g -> g_mirror g2 = g_mirror g ->
  (forall m, g_q g2 m == g_q g m) -> (forall m, g_aux g2 m == g_aux g m) ->
  same_solver_of g fw neq nw naux rp rp2 -> same_solver_of g2 fw neq nw naux rp rp2.
Proof.
  intros E1 E2 E3 E4 H ul ur al ar vl vr bl br A B A' B'.
  assert (X : forall n f f2 u v, (forall m, f2 m == f m) -> image n f2 u v -> image n f u v).
  { intros n f f2 u v K (L1 & L2 & L3). split; [exact L1|]. split; [exact L2|]. intros m Hm. rewrite <- K. apply L3. exact Hm. }
  specialize (H ul ur al ar vl vr bl br (X _ _ _ _ _ E3 A) (X _ _ _ _ _ E3 B) (X _ _ _ _ _ E4 A') (X _ _ _ _ _ E4 B')).
  rewrite E2. destruct H as [H1 H2]. split; rewrite ?E2.
  - intros p Hp. rewrite (H1 p Hp). destruct (g_mirror g); rewrite E1; reflexivity.
  - intros m Hm. destruct (H2 m Hm) as (K1 & K2 & K3). split; [rewrite K1, E1, E3; reflexivity|]. split; [rewrite K2, E1, E3; reflexivity|].
    intros p Hp. rewrite (K3 p Hp), E3. destruct fw; [rewrite E1|]; reflexivity.
Qed.
Lemma limits4 L C : (forall p, c_mthlim C p = 4%Z) -> plain_limiters L C.
Proof. intros H p _. rewrite H. destruct L; lia. Qed.
Definition hump (i : Z) : Q := match i with 1%Z => 1 | 2%Z => 2 | 3%Z => -(1) | _ => 0 end.
Example C139_example :
  let C := bset Periodic burgers in
  periodic_bc (c_bc C) /\ (2 <= c_ng C)%nat /\ (Z.of_nat (c_ng C) <= cells C)%Z /\ plain_limiters Python C /\ capa_in_aux C /\ regular C /\
  rel_world (same_q (moved 2) C) (same_aux (moved 2) C) eq eq eq 1 (bworld (bsolver (1 # 10) true) hump) (bworld (bsolver (1 # 10) true) (fun i => hump (i - 2))) /\
  let w' := fst (run_of nopow noundef (plain Python C) (bcontroller (1 # 2)) (bworld (bsolver (1 # 10) true) hump)) in
  length (w_frames w') = 3%nat /\ st_numsteps (w_solver w') = 3%Z.
Proof.
  cbv zeta. split; [repeat split|]. split; [cbn; lia|]. split; [cbn; lia|]. split; [apply limits4; reflexivity|]. split; [intros k; discriminate|].
  split.
  { apply (solver_of_ext (mkChange 1 1 (fun _ => 1 * 1) (fun _ => 1) false 0)); try reflexivity. apply (burgers_image false 1). reflexivity. }
  split.
  { constructor; try reflexivity; try constructor; try apply rel_solver_refl.
    - apply moved_cells. intros m i Hm Hi. cbn [w_sol bworld sq bdata]. cbn in Hi.
      assert (K : i = 0%Z \/ i = 1%Z \/ i = 2%Z \/ i = 3%Z \/ i = 4%Z \/ i = 5%Z) by lia.
      repeat match type of K with _ \/ _ => destruct K as [K|K] end; subst i; reflexivity.
    - split; [intros m i Hm Hi; cbn in Hm; lia|reflexivity]. }
  split; vm_compute; reflexivity.
Qed.

(** ** C140 The solver treats left and right alike *)
Theorem C140_mirrored_partial {E E2 P P2 F F2} pow undef (sg sga : Z -> Q) (RE : E -> E2 -> Prop) (RP : P -> P2 -> Prop) (RF : F -> F2 -> Prop)
    (p : program E) (p2 : program E2) (c : controller (arr Q) (arr Q) P F) (c2 : controller (arr Q) (arr Q) P2 F2) w w2 :
  let g := mirrored sg sga in let C := p_settings p in let RQ := same_q g C in let RX := same_aux g C in
  signs sg -> (forall k, c_capa C = Some k -> sga k == 1) -> (2 <= c_ng C)%nat ->
  fit_dim (c_ng C) (Nat.ltb 0 (c_naux C)) (Z.of_nat (c_neq C)) (c_bc C) ->
  plain_limiters (p_lang p) C -> capa_in_aux C -> no_standing_fwaves g (p_lang p) C -> fair_ends g (p_lang p) C ->
  same_program g RE p p2 -> rel_controller RQ RX RP RF 1 c c2 -> rel_world RQ RX RE RP RF 1 w w2 ->
  rel_world RQ RX RE RP RF 1 (fst (run_of pow undef p c w)) (fst (run_of pow undef p2 c2 w2)) /\
  snd (run_of pow undef p2 c2 w2) = snd (run_of pow undef p c w).
Proof.
  intros g C RQ RX Hs Hk Hng HF HL Hc HZ HE HS HC HW.
  apply (program_run pow undef g RE RP RF p p2); [|exact HS|left; reflexivity|exact HC|exact HW].
  constructor; fold C; try assumption.
  split; [reflexivity|]. split; [reflexivity|]. split; [|exact Hk]. left. exists 1. split; [reflexivity|].
  intros m _. cbn [g mirrored g_q]. destruct (Hs m) as [-> | ->]; reflexivity.
Qed.
Lemma mirrored_cells sg sga C a b : same_q (mirrored sg sga) C a b <->
  forall m i, (0 <= m < Z.of_nat (c_neq C))%Z -> (0 <= i < cells C)%Z -> b m [(cells C - 1 - i)%Z] == sg m * a m [i].
Proof.
  split; intros H m i Hm Hi; specialize (H m i Hm Hi); unfold place in *; cbn [mirrored g_mirror g_move g_q] in *;
    rewrite Z.add_0_r, Z.mod_small in * by lia; exact H.
Qed.
(** The two conditions cannot be left out: a Fortran step with f-waves of speed zero ... *)
Definition still : rpsolver := fun ql qr _ _ =>
  let w := hd 0 qr - hd 0 ql in mkOut (fun _ _ => w) (fun _ => 0) (fun _ => 0) (fun _ => 0).
Definition still2 : rpsolver := fun ql qr _ _ =>
  let w := hd 0 ql - hd 0 qr in mkOut (fun _ _ => w) (fun _ => 0) (fun _ => 0) (fun _ => 0).
Definition fset (rp : rpsolver) : settings :=
  mkSet 1 1 0 2 true 2 (fun _ => 0%Z) rp (1 # 2) (1 # 4) None (bdim Periodic) (mkFuns Q None None None None).
Definition ones : Z -> Q := fun _ => 1.
Lemma bdata_mirror f f2 t rp sg sga : (forall i, (0 <= i < 6)%Z -> f2 (5 - i)%Z == sg 0%Z * f i) ->
  rel_world (same_q (mirrored sg sga) (bset t rp)) (same_aux (mirrored sg sga) (bset t rp)) eq eq eq 1 (bworld (bsolver (1 # 10) true) f) (bworld (bsolver (1 # 10) true) f2).
Proof.
  intro H. constructor; try reflexivity; try constructor; try apply rel_solver_refl.
  - apply mirrored_cells. intros m i Hm Hi. cbn in Hm, Hi. assert (m = 0%Z) by lia. subst m. cbn [bworld w_sol sq bdata]. apply H. exact Hi.
  - split; [intros m i Hm Hi; cbn in Hm; lia|reflexivity].
Qed.
Theorem C140_standing_fwaves_refuted :
  exists (C C2 : settings) (w w2 : world (arr Q) (arr Q) unit unit unit) (c : controller (arr Q) (arr Q) unit unit),
  let g := mirrored ones ones in let RQ := same_q g C in let RX := same_aux g C in
  (2 <= c_ng C)%nat /\ fit_dim (c_ng C) (Nat.ltb 0 (c_naux C)) (Z.of_nat (c_neq C)) (c_bc C) /\ plain_limiters Fortran C /\ capa_in_aux C /\
  fair_ends g Fortran C /\ same_program g (@eq unit) (plain Fortran C) (plain Fortran C2) /\ rel_controller RQ RX (@eq unit) (@eq unit) 1 c c /\
  rel_world RQ RX eq eq eq 1 w w2 /\
  snd (run_of nopow noundef (plain Fortran C) c w) = None /\ snd (run_of nopow noundef (plain Fortran C2) c w2) = None /\
  ~ rel_sol RQ RX 1 (w_sol (fst (run_of nopow noundef (plain Fortran C) c w))) (w_sol (fst (run_of nopow noundef (plain Fortran C2) c w2))).
Proof.
  exists (fset still), (fset still2), (bworld (bsolver (1 # 10) true) hump), (bworld (bsolver (1 # 10) true) (fun i => hump (5 - i))), (bcontroller (1 # 10)).
  cbv zeta. split; [cbn; lia|]. split.
  { unfold fit_dim, standard, wide. cbn. intuition (auto; try discriminate; try lia). }
  split; [intros p _; cbn; lia|]. split; [intros k; discriminate|]. split; [intros _ K; discriminate K|].
  split.
  { apply same_plain. constructor; try reflexivity; [left; reflexivity|].
    intros ul ur al ar vl vr bl br (_ & _ & A) (_ & _ & B) _ _.
    specialize (A 0%Z ltac:(cbn; lia)). specialize (B 0%Z ltac:(cbn; lia)). cbn [Z.to_nat g_q mirrored ones] in A, B. rewrite <- !hd_nth in A, B.
    unfold same_answers. cbn [fset c_fwave c_rp g_mirror mirrored still still2 o_s o_am o_ap o_wave g_speed g_q].
    split; [intros p _; ring|]. intros m _. split; [reflexivity|]. split; [reflexivity|]. intros p _. rewrite A, B. unfold ones. ring. }
  split; [constructor; try reflexivity; constructor|].
  split; [apply (bdata_mirror hump _ Periodic still); intros i Hi; replace (5 - (5 - i))%Z with i by lia; unfold ones; ring|].
  split; [vm_compute; reflexivity|]. split; [vm_compute; reflexivity|].
  intros (K & _). specialize (K 0%Z 2%Z ltac:(cbn; lia) ltac:(cbn; lia)). vm_compute in K. discriminate K.
Qed.
(** ... and a Python step that sees one interface more on the left, where aux is reflected and q is not. *)
Definition varying (sgn : Q) : rpsolver := fun ql qr al ar =>
  mkOut (fun _ _ => 0) (fun _ => sgn * ((hd 0 al + hd 0 ar) * pymin (Qabs (hd 0 ql)) (Qabs (hd 0 qr)))) (fun _ => 0) (fun _ => 0).
Definition vset (sgn : Q) : settings :=
  mkSet 1 1 1 2 false 2 (fun _ => 0%Z) (varying sgn) (1 # 2) (1 # 4) None (mkDim 6 Extrap Extrap Wall Wall true true 0) (mkFuns Q None None None None).
Definition vworld (f h : Z -> Q) : world (arr Q) (arr Q) unit unit unit :=
  mkWorld (bsolver (1 # 100) true) true (mkSol (bdata f) (bdata h) 0) 0 [] false [].
Lemma pymin_comm a b : pymin a b == pymin b a.
Proof. unfold pymin. destruct (qltb b a) eqn:E1, (qltb a b) eqn:E2; qprop; lra. Qed.
Theorem C140_courant_number_refuted :
  exists (C C2 : settings) (w w2 : world (arr Q) (arr Q) unit unit unit) (c : controller (arr Q) (arr Q) unit unit),
  let g := mirrored ones ones in let RQ := same_q g C in let RX := same_aux g C in
  (2 <= c_ng C)%nat /\ fit_dim (c_ng C) (Nat.ltb 0 (c_naux C)) (Z.of_nat (c_neq C)) (c_bc C) /\ plain_limiters Python C /\ capa_in_aux C /\
  no_standing_fwaves g Python C /\ same_program g (@eq unit) (plain Python C) (plain Python C2) /\ rel_controller RQ RX (@eq unit) (@eq unit) 1 c c /\
  rel_world RQ RX eq eq eq 1 w w2 /\
  snd (run_of nopow noundef (plain Python C) c w) = None /\ snd (run_of nopow noundef (plain Python C2) c w2) = None /\
  ~ cfl (w_solver (fst (run_of nopow noundef (plain Python C) c w))) == cfl (w_solver (fst (run_of nopow noundef (plain Python C2) c w2))).
Proof.
  exists (vset 1), (vset (-(1))), (vworld (fun i => if Z.eqb i 0 then 1 else 0) (fun i => if Z.eqb i 1 then 5 else 1)),
    (vworld (fun i => if Z.eqb i 5 then 1 else 0) (fun i => if Z.eqb i 4 then 5 else 1)), (bcontroller (1 # 50)).
  cbv zeta. split; [cbn; lia|]. split.
  { unfold fit_dim, standard, wide. cbn. intuition (auto; try discriminate; try lia). }
  split; [intros p _; cbn; lia|]. split; [intros k; discriminate|]. split; [intros _ K; discriminate K|].
  split.
  { apply same_plain. constructor; try reflexivity; [left; reflexivity|].
    intros ul ur al ar vl vr bl br (_ & _ & A) (_ & _ & B) (_ & _ & A') (_ & _ & B').
    specialize (A 0%Z ltac:(cbn; lia)). specialize (B 0%Z ltac:(cbn; lia)). specialize (A' 0%Z ltac:(cbn; lia)). specialize (B' 0%Z ltac:(cbn; lia)).
    cbn [Z.to_nat g_q g_aux mirrored ones] in A, B, A', B'. rewrite <- !hd_nth in A, B, A', B'. unfold ones in A, B, A', B'. rewrite Qmult_1_l in A, B, A', B'.
    unfold same_answers. cbn [vset c_fwave c_rp g_mirror mirrored varying o_s o_am o_ap o_wave g_speed g_q].
    split; [|intros m _; split; [ring|split; [ring|intros p _; ring]]].
    intros p _. rewrite A, B, A', B', (pymin_comm (Qabs (hd 0 ur)) (Qabs (hd 0 ul))). ring. }
  split; [constructor; try reflexivity; constructor|].
  split.
  { constructor; try reflexivity; try constructor; try apply rel_solver_refl.
    - apply mirrored_cells. intros m i Hm Hi. cbn in Hi. cbn [vworld w_sol sq bdata].
      assert (K : i = 0%Z \/ i = 1%Z \/ i = 2%Z \/ i = 3%Z \/ i = 4%Z \/ i = 5%Z) by lia.
      repeat match type of K with _ \/ _ => destruct K as [K|K] end; subst i; reflexivity.
    - split; [|reflexivity]. intros m i Hm Hi. cbn in Hi. cbn [vworld w_sol sx bdata].
      assert (K : i = 0%Z \/ i = 1%Z \/ i = 2%Z \/ i = 3%Z \/ i = 4%Z \/ i = 5%Z) by lia.
      repeat match type of K with _ \/ _ => destruct K as [K|K] end; subst i; reflexivity. }
  split; [vm_compute; reflexivity|]. split; [vm_compute; reflexivity|].
  intro K. vm_compute in K. discriminate K.
Qed.
(** Burgers' equation with walls: the mirror image of a velocity is minus the velocity. *)
Definition minus_ones : Z -> Q := fun _ => -(1).
Lemma burgers_mirror t : (t = Wall \/ t = Extrap \/ t = Periodic) -> corresponding (mirrored minus_ones ones) (bset t burgers) (bset t burgers).
Proof.
  intro Ht. constructor; try reflexivity; [left; reflexivity|].
  apply (solver_of_ext (mkChange 1 1 (fun _ => -(1) * 1) ones true 0)); try reflexivity. apply (burgers_image true 1). reflexivity.
Qed.
Example C140_example :
  let g := mirrored minus_ones ones in let C := bset Wall burgers in
  signs minus_ones /\ (2 <= c_ng C)%nat /\ fit_dim (c_ng C) (Nat.ltb 0 (c_naux C)) (Z.of_nat (c_neq C)) (c_bc C) /\
  plain_limiters Fortran C /\ capa_in_aux C /\ no_standing_fwaves g Fortran C /\ fair_ends g Fortran C /\
  same_program g (@eq unit) (plain Fortran C) (plain Fortran C) /\ rel_controller (same_q g C) (same_aux g C) (@eq unit) (@eq unit) 1 (bcontroller 1) (bcontroller 1) /\
  rel_world (same_q g C) (same_aux g C) eq eq eq 1 (bworld (bsolver (1 # 10) true) hump) (bworld (bsolver (1 # 10) true) (fun i => - hump (5 - i))).
Proof.
  cbv zeta. split; [intro m; right; reflexivity|]. split; [cbn; lia|]. split.
  { unfold fit_dim, standard, wide. cbn. intuition (auto; try discriminate; try lia). }
  split; [apply limits4; reflexivity|]. split; [intros k; discriminate|]. split; [intros _ K; discriminate K|]. split; [intros _ K; discriminate K|].
  split; [apply same_plain, burgers_mirror; auto|].
  split; [constructor; try reflexivity; constructor|].
  apply (bdata_mirror hump _ Wall burgers). intros i Hi. replace (5 - (5 - i))%Z with i by lia. unfold minus_ones. ring.
Qed.

(** ** C141 Symmetric problems keep symmetric data *)
Definition symmetric (sg sga : Z -> Q) (C : settings) (so : sol (arr Q) (arr Q)) : Prop :=
  (forall m i, (0 <= m < Z.of_nat (c_neq C))%Z -> (0 <= i < cells C)%Z -> sq so m [(cells C - 1 - i)%Z] == sg m * sq so m [i]) /\
  (forall m i, (0 <= m < Z.of_nat (c_naux C))%Z -> (0 <= i < cells C)%Z -> sx so m [(cells C - 1 - i)%Z] == sga m * sx so m [i]).
Definition symmetric_output {P F} (sg sga : Z -> Q) (C : settings) (o : output (arr Q) (arr Q) P F) : Prop :=
  match o with WriteP _ so _ | WriteQ _ _ so => symmetric sg sga C so | WriteF _ _ _ => True end.
Lemma symmetric_rel sg sga C so : symmetric sg sga C so <-> rel_sol (same_q (mirrored sg sga) C) (same_aux (mirrored sg sga) C) 1 so so.
Proof.
  unfold rel_sol. rewrite mirrored_cells. split.
  - intros [A B]. split; [exact A|]. split; [|ring]. intros m i Hm Hi. unfold place. cbn [mirrored g_mirror g_move g_aux].
    rewrite Z.add_0_r, Z.mod_small by lia. apply B; assumption.
  - intros (A & B & _). split; [exact A|]. intros m i Hm Hi. specialize (B m i Hm Hi). unfold place in B. cbn [mirrored g_mirror g_move g_aux] in B.
    rewrite Z.add_0_r, Z.mod_small in B by lia. exact B.
Qed.
Lemma Forall2_diag {A} (R : A -> A -> Prop) l : Forall2 R l l <-> Forall (fun x => R x x) l.
Proof. induction l as [|a l IH]; split; intro H; constructor; inversion H; subst; try assumption; apply IH; assumption. Qed.
Theorem C141_symmetry_kept {E P F} pow undef (sg sga : Z -> Q) (p : program E) (c : controller (arr Q) (arr Q) P F) w :
  let g := mirrored sg sga in let C := p_settings p in
  signs sg -> (forall k, c_capa C = Some k -> sga k == 1) -> (2 <= c_ng C)%nat ->
  fit_dim (c_ng C) (Nat.ltb 0 (c_naux C)) (Z.of_nat (c_neq C)) (c_bc C) ->
  plain_limiters (p_lang p) C -> capa_in_aux C -> no_standing_fwaves g (p_lang p) C -> fair_ends g (p_lang p) C ->
  same_program g eq p p ->
  symmetric sg sga C (w_sol w) -> Forall (symmetric sg sga C) (w_frames w) -> w_out w = [] ->
  let w' := fst (run_of pow undef p c w) in
  symmetric sg sga C (w_sol w') /\ Forall (symmetric sg sga C) (w_frames w') /\ Forall (symmetric_output sg sga C) (w_out w').
Proof.
  intros g C Hs Hk Hng HF HL Hc HZ HE HS H1 H2 H3.
  pose proof (C140_mirrored_partial pow undef sg sga eq (fun (_ _ : P) => True) (fun (_ _ : F) => True) p p c c w w Hs Hk Hng HF HL Hc HZ HE HS) as K.
  fold C in K.
  destruct K as [K _].
  - constructor; try reflexivity; try ring.
    + induction (c_times c); constructor; [ring|assumption].
    + destruct (c_p c); [intros so so2 _; exact I|exact I].
    + destruct (c_F c); [intros so so2 _; exact I|exact I].
  - constructor; try reflexivity; [apply rel_solver_refl|apply symmetric_rel; exact H1| |rewrite H3; constructor].
    apply Forall2_diag. refine (Forall_impl _ _ H2). intros so. apply symmetric_rel.
  - destruct K as [_ _ K1 _ K2 _ K3]. cbv zeta. split; [apply symmetric_rel; exact K1|]. split.
    + apply Forall2_diag in K2. refine (Forall_impl _ _ K2). intros so. apply symmetric_rel.
    + apply Forall2_diag in K3. refine (Forall_impl _ _ K3). intros [k so q|k a so|b t v] X; cbn in X; cbn; [| |exact I]; apply symmetric_rel; tauto.
Qed.
Definition odd_data (i : Z) : Q := match i with 1%Z => 2 | 2%Z => 1 | 3%Z => -(1) | 4%Z => -(2) | _ => 0 end.
Example C141_example :
  let C := bset Wall burgers in
  same_program (mirrored minus_ones ones) (@eq unit) (plain Fortran C) (plain Fortran C) /\
  symmetric minus_ones ones C (w_sol (bworld (bsolver (1 # 10) true) odd_data)) /\
  let w' := fst (run_of nopow noundef (plain Fortran C) (bcontroller (1 # 2)) (bworld (bsolver (1 # 10) true) odd_data)) in
  length (w_frames w') = 3%nat /\ forallb (fun so => qltb 0 (sq so 0%Z [1%Z])) (w_frames w') = true.
Proof.
  cbv zeta. split; [apply same_plain, burgers_mirror; auto|]. split; [|split; vm_compute; reflexivity].
  split; [|intros m i Hm; cbn in Hm; lia]. intros m i Hm Hi. cbn in Hi. cbn [bworld w_sol sq bdata].
  assert (K : i = 0%Z \/ i = 1%Z \/ i = 2%Z \/ i = 3%Z \/ i = 4%Z \/ i = 5%Z) by lia.
  repeat match type of K with _ \/ _ => destruct K as [K|K] end; subst i; reflexivity.
Qed.

(** ** C142 The choice of units does not matter *)
Theorem C142_units_partial {E E2 P P2 F F2} pow undef (time speed : Q) (fq fa : Z -> Q) (RE : E -> E2 -> Prop) (RP : P -> P2 -> Prop) (RF : F -> F2 -> Prop)
    (p : program E) (p2 : program E2) (c : controller (arr Q) (arr Q) P F) (c2 : controller (arr Q) (arr Q) P2 F2) w w2 :
  let g := units time speed fq fa in let C := p_settings p in let RQ := same_q g C in let RX := same_aux g C in
  0 < time -> 0 < speed ->
  (exists k, 0 < k /\ forall m, (0 <= m < Z.of_nat (c_neq C))%Z -> fq m * fq m == k) \/ (forall p, (0 <= p < Z.of_nat (c_nw C))%Z -> c_mthlim C p = 0%Z) ->
  (forall k, c_capa C = Some k -> fa k == 1) ->
  (2 <= c_ng C)%nat -> fit_dim (c_ng C) (Nat.ltb 0 (c_naux C)) (Z.of_nat (c_neq C)) (c_bc C) ->
  plain_limiters (p_lang p) C -> capa_in_aux C -> dt_variable (w_solver w) = true -> keeps_mode p ->
  same_program g RE p p2 -> rel_controller RQ RX RP RF time c c2 -> rel_world RQ RX RE RP RF time w w2 ->
  rel_world RQ RX RE RP RF time (fst (run_of pow undef p c w)) (fst (run_of pow undef p2 c2 w2)) /\
  snd (run_of pow undef p2 c2 w2) = snd (run_of pow undef p c w).
Proof.
  intros g C RQ RX Ht Hv Hk Hf Hng HF HL Hc HV HM HS HC HW.
  apply (program_run pow undef g RE RP RF p p2); [|exact HS|right; split; assumption|exact HC|exact HW].
  constructor; fold C; try assumption; [|intro K; discriminate K|intro K; discriminate K].
  split; [exact Ht|]. split; [exact Hv|]. split; [exact Hk|exact Hf].
Qed.
Lemma units_cells time speed fq fa C a b : same_q (units time speed fq fa) C a b <->
  forall m i, (0 <= m < Z.of_nat (c_neq C))%Z -> (0 <= i < cells C)%Z -> b m [i] == fq m * a m [i].
Proof.
  split; intros H m i Hm Hi; specialize (H m i Hm Hi); unfold place in *; cbn [units g_mirror g_move g_q] in *;
    rewrite Z.add_0_r, Z.mod_small in * by lia; exact H.
Qed.
(** The same Burgers problem in minutes and hundreds of metres per minute *)
Definition scaled_set (T mu : Q) (t : bctype) (rp : rpsolver) : settings :=
  mkSet 1 1 0 2 false 2 (fun _ => 4%Z) rp (T * mu * (1 # 2)) (1 # 4) None (bdim t) (mkFuns Q None None None None).
Definition scaled_solver (T d : Q) (var : bool) : solver unit := mkSolver (T * d) None (T * 100) var (9 # 10) 1 (9 # 10) 1000 None None None 0 true tt.
Lemma scaled_rel T mu t rp f d var : 0 < T ->
  rel_world (same_q (units T mu (fun _ => mu) ones) (bset t rp)) (same_aux (units T mu (fun _ => mu) ones) (bset t rp)) eq eq eq T
    (bworld (bsolver d var) f) (bworld (scaled_solver T d var) (fun i => mu * f i)).
Proof.
  intro HT. constructor; try reflexivity; try constructor; try (cbn; reflexivity).
  - apply units_cells. intros m i Hm Hi. reflexivity.
  - split; [intros m i Hm Hi; cbn in Hm; lia|cbn; ring].
Qed.
Definition scaled_controller (T te : Q) : controller (arr Q) (arr Q) unit unit := mkController 1 (T * te) 2 [] 1 true false false true true None None.
Lemma scaled_same T mu t L : 0 < mu -> same_program (units T mu (fun _ => mu) ones) (@eq unit) (plain L (bset t burgers)) (plain L (scaled_set T mu t burgers)).
Proof.
  intro Hmu. apply same_plain. constructor; try reflexivity; [left; reflexivity|].
  apply (solver_of_ext (mkChange T mu (fun _ => 1 * mu) ones false 0)); try reflexivity.
  - intro m. cbn. ring.
  - apply (burgers_image false mu). exact Hmu.
Qed.
Example C142_example : forall T mu, 0 < T -> 0 < mu ->
  let g := units T mu (fun _ => mu) ones in let C := bset Wall burgers in
  (exists k, 0 < k /\ forall m, (0 <= m < Z.of_nat (c_neq C))%Z -> mu * mu == k) /\
  (2 <= c_ng C)%nat /\ fit_dim (c_ng C) (Nat.ltb 0 (c_naux C)) (Z.of_nat (c_neq C)) (c_bc C) /\ plain_limiters Fortran C /\ capa_in_aux C /\
  keeps_mode (plain Fortran C : program unit) /\ same_program g (@eq unit) (plain Fortran C) (plain Fortran (scaled_set T mu Wall burgers)) /\
  rel_controller (same_q g C) (same_aux g C) (@eq unit) (@eq unit) T (bcontroller 1) (scaled_controller T 1) /\
  rel_world (same_q g C) (same_aux g C) eq eq eq T (bworld (bsolver (1 # 10) true) hump) (bworld (scaled_solver T (1 # 10) true) (fun i => mu * hump i)).
Proof.
  intros T mu HT Hmu. cbv zeta. split; [exists (mu * mu); split; [apply Qmul_pos; assumption|intros; reflexivity]|]. split; [cbn; lia|]. split.
  { unfold fit_dim, standard, wide. cbn. intuition (auto; try discriminate; try lia). }
  split; [apply limits4; reflexivity|]. split; [intros k; discriminate|]. split; [intro s; reflexivity|].
  split; [apply scaled_same; exact Hmu|]. split; [constructor; try reflexivity; constructor|]. apply scaled_rel. exact HT.
Qed.
(** With a fixed step the length of a run is compared with an absolute tolerance: a run of two steps is accepted, the same
    run with times counted in a unit 10^11 times as long is refused. *)
Theorem C142_fixed_steps_refuted :
  exists (T : Q) (w w2 : world (arr Q) (arr Q) unit unit unit) (c c2 : controller (arr Q) (arr Q) unit unit),
  let g := units T 1 ones ones in let C := bset Wall burgers in let RQ := same_q g C in let RX := same_aux g C in
  0 < T /\ dt_variable (w_solver w) = false /\
  same_program g (@eq unit) (plain Python C) (plain Python (scaled_set T 1 Wall burgers)) /\ rel_controller RQ RX (@eq unit) (@eq unit) T c c2 /\
  rel_world RQ RX eq eq eq T w w2 /\
  snd (run_of nopow noundef (plain Python C) c w) = None /\
  snd (run_of nopow noundef (plain Python (scaled_set T 1 Wall burgers)) c2 w2) = Some (EvolveError EDtNotDivide).
Proof.
  exists (1 # 100000000000), (bworld (bsolver (1 # 10) false) hump), (bworld (scaled_solver (1 # 100000000000) (1 # 10) false) (fun i => 1 * hump i)),
    (bcontroller (1 # 5)), (scaled_controller (1 # 100000000000) (1 # 5)).
  cbv zeta. split; [reflexivity|]. split; [reflexivity|].
  split; [exact (scaled_same (1 # 100000000000) 1 Wall Python ltac:(reflexivity))|].
  split; [constructor; try reflexivity; constructor|]. split; [exact (scaled_rel (1 # 100000000000) 1 Wall burgers hump (1 # 10) false ltac:(reflexivity))|].
  split; vm_compute; reflexivity.
Qed.
(** Limiters compare scalar products over the components: with different units in the components their answer depends on
    the units. *)
Definition carried : rpsolver := fun ql qr _ _ =>
  mkOut (fun m _ => nth (Z.to_nat m) qr 0 - nth (Z.to_nat m) ql 0) (fun _ => 1) (fun _ => 0) (fun m => nth (Z.to_nat m) qr 0 - nth (Z.to_nat m) ql 0).
Definition cset : settings :=
  mkSet 2 1 0 2 false 2 (fun _ => 1%Z) carried (1 # 2) (1 # 4) None (bdim Periodic) (mkFuns Q None None None None).
Definition ten (m : Z) : Q := if Z.eqb m 1 then 10 else 1.
Definition two_data (k : Q) : arr Q := fun m ix =>
  match m, ix with 0%Z, [1%Z] => 1 | 0%Z, [2%Z] => 2 | 1%Z, [2%Z] => k | 1%Z, [3%Z] => 2 * k | _, _ => 0 end.
Definition cworld (k : Q) : world (arr Q) (arr Q) unit unit unit := mkWorld (bsolver (1 # 10) true) true (mkSol (two_data k) zero_arr 0) 0 [] false [].
Theorem C142_components_refuted :
  exists (C : settings) (w w2 : world (arr Q) (arr Q) unit unit unit) (c : controller (arr Q) (arr Q) unit unit),
  let g := units 1 1 ten ones in let RQ := same_q g C in let RX := same_aux g C in
  (2 <= c_ng C)%nat /\ fit_dim (c_ng C) (Nat.ltb 0 (c_naux C)) (Z.of_nat (c_neq C)) (c_bc C) /\ plain_limiters Python C /\ capa_in_aux C /\
  dt_variable (w_solver w) = true /\ same_program g (@eq unit) (plain Python C) (plain Python C) /\ rel_controller RQ RX (@eq unit) (@eq unit) 1 c c /\
  rel_world RQ RX eq eq eq 1 w w2 /\
  snd (run_of nopow noundef (plain Python C) c w) = None /\ snd (run_of nopow noundef (plain Python C) c w2) = None /\
  ~ rel_sol RQ RX 1 (w_sol (fst (run_of nopow noundef (plain Python C) c w))) (w_sol (fst (run_of nopow noundef (plain Python C) c w2))).
Proof.
  exists cset, (cworld 1), (cworld 10), (bcontroller (1 # 5)). cbv zeta. split; [cbn; lia|]. split.
  { unfold fit_dim, standard, wide. cbn. intuition (auto; try discriminate; try lia). }
  split; [intros p _; cbn; lia|]. split; [intros k; discriminate|]. split; [reflexivity|]. split.
  { apply same_plain. constructor; try reflexivity; [left; reflexivity|].
    intros ul ur al ar vl vr bl br (_ & _ & A) (_ & _ & B) _ _. unfold same_answers.
    cbn [cset c_fwave c_rp g_mirror units carried o_s o_am o_ap o_wave g_speed g_q] in *.
    split; [intros; ring|]. intros m Hm. specialize (A m Hm). specialize (B m Hm). split; [ring|]. split; [rewrite A, B; ring|].
    intros p Hp. rewrite A, B. ring. }
  split; [constructor; try reflexivity; constructor|].
  split.
  { constructor; try reflexivity; try constructor; try apply rel_solver_refl.
    - apply units_cells. intros m i Hm Hi. cbn in Hm, Hi. cbn [cworld w_sol sq].
      assert (Km : m = 0%Z \/ m = 1%Z) by lia.
      assert (K : i = 0%Z \/ i = 1%Z \/ i = 2%Z \/ i = 3%Z \/ i = 4%Z \/ i = 5%Z) by lia.
      repeat match type of K with _ \/ _ => destruct K as [K|K] end; subst i; destruct Km; subst m; reflexivity.
    - split; [intros m i Hm Hi; cbn in Hm; lia|reflexivity]. }
  split; [vm_compute; reflexivity|]. split; [vm_compute; reflexivity|].
  intros (K & _). pose proof (K 0%Z 2%Z ltac:(cbn; lia) ltac:(cbn; lia)) as X. vm_compute in X. discriminate X.
Qed.

Print Assumptions C139_moved_origin.
Print Assumptions C139_same_program.
Print Assumptions C140_mirrored_partial.
Print Assumptions C140_standing_fwaves_refuted.
Print Assumptions C140_courant_number_refuted.
Print Assumptions C141_symmetry_kept.
Print Assumptions C142_units_partial.
Print Assumptions C142_fixed_steps_refuted.
Print Assumptions C142_components_refuted.
