(** Corresponding problems (C139-C142): one problem is the other in other units, moved along a periodic grid, or seen in a
    mirror. *)
From Verif Require Import Base BCModel BCSpec LimiterModel Classic1DModel Classic1DSpec TimeModel ControllerModel RunModel SimSpec.

Record change := mkChange {
  g_time : Q;            (* factor of times *)
  g_speed : Q;           (* factor of speeds; that of lengths is g_time * g_speed *)
  g_q : Z -> Q;          (* factor of each component of q *)
  g_aux : Z -> Q;        (* factor of each component of aux *)
  g_mirror : bool;       (* is left and right exchanged? *)
  g_move : Z }.          (* number of cells by which the data is moved to the right on a periodic grid *)

(** The cell of the second problem that corresponds to cell i of the first *)
Definition place (g : change) (n i : Z) : Z := (((if g_mirror g then n - 1 - i else i) + g_move g) mod n)%Z.
(** States u and v of the two problems that correspond, as lists of n components *)
Definition image (n : nat) (f : Z -> Q) (u v : list Q) : Prop :=
  length u = n /\ length v = n /\ forall m, (0 <= m < Z.of_nat n)%Z -> nth (Z.to_nat m) v 0 == f m * nth (Z.to_nat m) u 0.

(** Riemann solvers whose answers correspond whenever the states do. In a mirror left and right are exchanged, waves go
    the other way and jumps change their sign. *)
Definition same_answers (g : change) (fwave : bool) (neq nw : nat) (o o2 : rpout) : Prop :=
  (forall p, (0 <= p < Z.of_nat nw)%Z -> o_s o2 p == (if g_mirror g then - g_speed g else g_speed g) * o_s o p) /\
  (forall m, (0 <= m < Z.of_nat neq)%Z ->
     o_am o2 m == g_speed g * g_q g m * (if g_mirror g then o_ap o m else o_am o m) /\
     o_ap o2 m == g_speed g * g_q g m * (if g_mirror g then o_am o m else o_ap o m) /\
     forall p, (0 <= p < Z.of_nat nw)%Z ->
       o_wave o2 m p == (if fwave then g_speed g else if g_mirror g then -(1) else 1) * g_q g m * o_wave o m p).
Definition same_solver_of (g : change) (fwave : bool) (neq nw naux : nat) (rp rp2 : rpsolver) : Prop :=
  forall ul ur al ar vl vr bl br,
  image neq (g_q g) ul vl -> image neq (g_q g) ur vr -> image naux (g_aux g) al bl -> image naux (g_aux g) ar br ->
  same_answers g fwave neq nw (rp ul ur al ar) (if g_mirror g then rp2 vr vl br bl else rp2 vl vr bl br).

Definition flipped (D : dimbc) : dimbc :=
  mkDim (ncells D) (q_hi D) (q_lo D) (a_hi D) (a_lo D) (on_hi D) (on_lo D) (reflect D).

(** Times and lengths are not turned round; a capacity has no unit; and where waves are limited the components of q have
    one unit, up to signs (limiters compare scalar products of waves). *)
Definition sensible (g : change) (C : settings) : Prop :=
  0 < g_time g /\ 0 < g_speed g /\
  ((exists k, 0 < k /\ forall m, (0 <= m < Z.of_nat (c_neq C))%Z -> g_q g m * g_q g m == k) \/
   (forall p, (0 <= p < Z.of_nat (c_nw C))%Z -> c_mthlim C p = 0%Z)) /\
  forall k, c_capa C = Some k -> g_aux g k == 1.
Record corresponding (g : change) (C C2 : settings) : Prop := mkCorr {
  co_neq : c_neq C2 = c_neq C; co_nw : c_nw C2 = c_nw C; co_naux : c_naux C2 = c_naux C; co_ng : c_ng C2 = c_ng C;
  co_fwave : c_fwave C2 = c_fwave C; co_order : c_order C2 = c_order C;
  co_mthlim : c_mthlim C2 = c_mthlim C;
  co_capa : c_capa C2 = c_capa C;
  co_bc : c_bc C2 = if g_mirror g then flipped (c_bc C) else c_bc C;
  co_move : g_move g = 0%Z \/ periodic_bc (c_bc C);
  co_dx : c_dx C2 == g_time g * g_speed g * c_dx C;
  co_rp : same_solver_of g (c_fwave C) (c_neq C) (c_nw C) (c_naux C) (c_rp C) (c_rp C2) }.

(** Limiters that are functions of the ratio of jumps in the same cell, by number *)
Definition plain_limiters (L : lang) (C : settings) : Prop :=
  forall mw, (0 <= mw < Z.of_nat (c_nw C))%Z ->
  (0 <= c_mthlim C mw <= match L with Python => 16 | Fortran => 5 end)%Z.
(** In a mirror, f-waves of speed zero are a problem for the Fortran kernel (C140). *)
Definition no_standing_fwaves (g : change) (L : lang) (C : settings) : Prop :=
  g_mirror g = true -> c_fwave C = true -> L = Fortran ->
  forall ul ur al ar p, (0 <= p < Z.of_nat (c_nw C))%Z -> ~ o_s (c_rp C ul ur al ar) p == 0.

(** Arrays without ghost cells that correspond *)
Definition same_array (g : change) (n : Z) (comps : nat) (f : Z -> Q) (a a2 : arr Q) : Prop :=
  forall m i, (0 <= m < Z.of_nat comps)%Z -> (0 <= i < n)%Z -> a2 m [place g n i] == f m * a m [i].
Definition same_sol (g : change) (C : settings) (so so2 : sol (arr Q) (arr Q)) : Prop :=
  same_array g (cells C) (c_neq C) (g_q g) (sq so) (sq so2) /\
  same_array g (cells C) (c_naux C) (g_aux g) (sx so) (sx so2) /\
  st so2 == g_time g * st so.
(** The Python kernel looks at one interface more on the left than on the right when it computes the Courant number; in a
    mirror this is no problem if nothing new is seen there. *)
Definition fair_ends (g : change) (L : lang) (C : settings) : Prop :=
  g_mirror g = true -> L = Python -> periodic_bc (c_bc C) \/
  (q_lo (c_bc C) = Extrap /\ q_hi (c_bc C) = Extrap /\
   ((0 < c_naux C)%nat -> a_lo (c_bc C) = Extrap /\ a_hi (c_bc C) = Extrap)).

(** A program that uses the 1D classic solver: the solver's settings and the user's functions *)
Record program (E : Type) := mkProgram {
  p_lang : lang; p_settings : settings;
  p_source : option (Q -> sol (arr Q) (arr Q) -> arr Q * arr Q); p_split : Z;         (* step_source, source_split *)
  p_before : sol (arr Q) (arr Q) -> arr Q * arr Q;                                  (* before_step *)
  p_stale : Q -> sol (arr Q) (arr Q) -> arr Q * arr Q;                              (* what the work arrays happen to hold *)
  p_setup : solver E -> solver E; p_valid : solver E -> sol (arr Q) (arr Q) -> bool }.
Arguments mkProgram {E}. Arguments p_lang {E}. Arguments p_settings {E}. Arguments p_source {E}. Arguments p_split {E}.
Arguments p_before {E}. Arguments p_stale {E}. Arguments p_setup {E}. Arguments p_valid {E}.
Definition evolve_of {E} (pow : Q -> Q -> Q) (undef : Q -> Q -> Z -> Q) (p : program E) : solver E -> sol (arr Q) (arr Q) -> option Q -> result (arr Q) (arr Q) E :=
  classic_evolve (p_source p) (hyper_1d pow undef (p_lang p) (p_settings p) (p_stale p)) (p_split p) (p_before p).
Definition run_of {E P F} (pow : Q -> Q -> Q) (undef : Q -> Q -> Z -> Q) (p : program E) (c : controller (arr Q) (arr Q) P F)
    (w : world (arr Q) (arr Q) E P F) : world (arr Q) (arr Q) E P F * option run_error :=
  run (evolve_of pow undef p) (p_setup p) (p_valid p) c w.

Definition same_q (g : change) (C : settings) : arr Q -> arr Q -> Prop := same_array g (cells C) (c_neq C) (g_q g).
Definition same_aux (g : change) (C : settings) : arr Q -> arr Q -> Prop := same_array g (cells C) (c_naux C) (g_aux g).
Record same_program (g : change) {E E2} (RE : E -> E2 -> Prop) (p : program E) (p2 : program E2) : Prop := mkSame {
  sp_lang : p_lang p2 = p_lang p; sp_settings : corresponding g (p_settings p) (p_settings p2); sp_split : p_split p2 = p_split p;
  sp_source : rel_source (same_q g (p_settings p)) (same_aux g (p_settings p)) (g_time g) (p_source p) (p_source p2);
  sp_before : rel_before (same_q g (p_settings p)) (same_aux g (p_settings p)) (g_time g) (p_before p) (p_before p2);
  sp_setup : forall s s2, rel_solver RE (g_time g) s s2 -> rel_solver RE (g_time g) (p_setup p s) (p_setup p2 s2);
  sp_valid : forall s s2 so so2, rel_solver RE (g_time g) s s2 ->
     rel_sol (same_q g (p_settings p)) (same_aux g (p_settings p)) (g_time g) so so2 -> p_valid p2 s2 so2 = p_valid p s so }.
Record fit_program (g : change) {E} (p : program E) : Prop := mkFit {
  fp_sensible : sensible g (p_settings p); fp_limiters : plain_limiters (p_lang p) (p_settings p); fp_capa : capa_in_aux (p_settings p);
  fp_standing : no_standing_fwaves g (p_lang p) (p_settings p); fp_ends : fair_ends g (p_lang p) (p_settings p);
  fp_ng : (2 <= c_ng (p_settings p))%nat;
  fp_fit : fit_dim (c_ng (p_settings p)) (Nat.ltb 0 (c_naux (p_settings p))) (Z.of_nat (c_neq (p_settings p))) (c_bc (p_settings p)) }.
(** Set-up leaves the choice between fixed and variable steps as it is. *)
Definition keeps_mode {E} (p : program E) : Prop := forall s, dt_variable (p_setup p s) = dt_variable s.

(** The three kinds of change *)
Definition moved (k : Z) : change := mkChange 1 1 (fun _ => 1) (fun _ => 1) false k.
Definition mirrored (sg sga : Z -> Q) : change := mkChange 1 1 sg sga true 0.
Definition units (time speed : Q) (fq fa : Z -> Q) : change := mkChange time speed fq fa false 0.
Definition signs (sg : Z -> Q) : Prop := forall m, sg m == 1 \/ sg m == -(1).
