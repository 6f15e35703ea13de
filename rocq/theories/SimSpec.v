(** Two runs whose data correspond, with times that differ by a factor (C139-C142). *)
From Verif Require Import Base TimeModel ControllerModel.

Section Rel.
Context {DQ DQ2 DX DX2 E E2 P P2 F F2 : Type}.
Variables (RQ : DQ -> DQ2 -> Prop) (RX : DX -> DX2 -> Prop) (RE : E -> E2 -> Prop) (RP : P -> P2 -> Prop) (RF : F -> F2 -> Prop).
Variable T : Q.     (* the factor of times *)

Definition times (f : Q) (a b : option Q) : Prop :=
  match a, b with None, None => True | Some x, Some y => y == f * x | _, _ => False end.
Definition rel_sol (so : sol DQ DX) (so2 : sol DQ2 DX2) : Prop := RQ (sq so) (sq so2) /\ RX (sx so) (sx so2) /\ st so2 == T * st so.
Record rel_solver (s : solver E) (s2 : solver E2) : Prop := mkRelSolver {
  rs_dt : dt s2 == T * dt s; rs_dt_old : times T (dt_old s) (dt_old s2); rs_dt_max : dt_max s2 == T * dt_max s;
  rs_variable : dt_variable s2 = dt_variable s; rs_desired : cfl_desired s2 == cfl_desired s; rs_cfl_max : cfl_max s2 == cfl_max s;
  rs_cfl : cfl s2 == cfl s; rs_max_steps : max_steps s2 = max_steps s;
  rs_cflmax : times 1 (st_cflmax s) (st_cflmax s2); rs_dtmin : times T (st_dtmin s) (st_dtmin s2); rs_dtmax : times T (st_dtmax s) (st_dtmax s2);
  rs_numsteps : st_numsteps s2 = st_numsteps s; rs_accept : accept_step s2 = accept_step s; rs_ext : RE (ext s) (ext s2) }.
Definition rel_event (e : event DQ DX) (e2 : event DQ2 DX2) : Prop :=
  ev_accepted e2 = ev_accepted e /\ ev_dt e2 == T * ev_dt e /\ ev_cfl e2 == ev_cfl e /\
  rel_sol (ev_before e) (ev_before e2) /\ rel_sol (ev_after e) (ev_after e2).
Record rel_result (r : result DQ DX E) (r2 : result DQ2 DX2 E2) : Prop := mkRelResult {
  rr_solver : rel_solver (r_solver r) (r_solver r2); rr_sol : rel_sol (r_sol r) (r_sol r2);
  rr_trace : Forall2 rel_event (r_trace r) (r_trace r2); rr_err : r_err r2 = r_err r }.

(** Callbacks that do corresponding things to corresponding data *)
Definition rel_data (d : DQ * DX) (d2 : DQ2 * DX2) : Prop := RQ (fst d) (fst d2) /\ RX (snd d) (snd d2).
Definition rel_before (b : sol DQ DX -> DQ * DX) (b2 : sol DQ2 DX2 -> DQ2 * DX2) : Prop :=
  forall so so2, rel_sol so so2 -> rel_data (b so) (b2 so2).
Definition rel_source (src : option (Q -> sol DQ DX -> DQ * DX)) (src2 : option (Q -> sol DQ2 DX2 -> DQ2 * DX2)) : Prop :=
  match src, src2 with
  | None, None => True
  | Some f, Some f2 => forall d d2 so so2, d2 == T * d -> rel_sol so so2 -> rel_data (f d so) (f2 d2 so2)
  | _, _ => False
  end.
Definition rel_hyper (h : Q -> sol DQ DX -> DQ * DX * Q) (h2 : Q -> sol DQ2 DX2 -> DQ2 * DX2 * Q) : Prop :=
  forall d d2 so so2, d2 == T * d -> rel_sol so so2 ->
  rel_data (fst (h d so)) (fst (h2 d2 so2)) /\ snd (h2 d2 so2) == snd (h d so).

(** Controllers and what they leave behind *)
Definition rel_observer {A A2} (RA : A -> A2 -> Prop) (f : option (sol DQ DX -> A)) (f2 : option (sol DQ2 DX2 -> A2)) : Prop :=
  match f, f2 with
  | None, None => True
  | Some h, Some h2 => forall so so2, rel_sol so so2 -> RA (h so) (h2 so2)
  | _, _ => False
  end.
Record rel_controller (c : controller DQ DX P F) (c2 : controller DQ2 DX2 P2 F2) : Prop := mkRelController {
  rc_style : c_style c2 = c_style c; rc_tfinal : c_tfinal c2 == T * c_tfinal c; rc_num : c_num c2 = c_num c;
  rc_times : Forall2 (fun a b => b == T * a) (c_times c) (c_times c2); rc_nstepout : c_nstepout c2 = c_nstepout c;
  rc_keep : c_keep c2 = c_keep c; rc_aux_init : c_aux_init c2 = c_aux_init c; rc_aux_always : c_aux_always c2 = c_aux_always c;
  rc_output : c_output c2 = c_output c; rc_overwrite : c_overwrite c2 = c_overwrite c;
  rc_p : rel_observer RP (c_p c) (c_p c2); rc_F : rel_observer RF (c_F c) (c_F c2) }.
Definition rel_output (o : output DQ DX P F) (o2 : output DQ2 DX2 P2 F2) : Prop :=
  match o, o2 with
  | WriteP k so p, WriteP k2 so2 p2 => k2 = k /\ rel_sol so so2 /\ RP p p2
  | WriteQ k a so, WriteQ k2 a2 so2 => k2 = k /\ a2 = a /\ rel_sol so so2
  | WriteF b t v, WriteF b2 t2 v2 => b2 = b /\ t2 == T * t /\ RF v v2
  | _, _ => False
  end.
Record rel_world (w : world DQ DX E P F) (w2 : world DQ2 DX2 E2 P2 F2) : Prop := mkRelWorld {
  rw_solver : rel_solver (w_solver w) (w_solver w2); rw_set_up : w_set_up w2 = w_set_up w; rw_sol : rel_sol (w_sol w) (w_sol w2);
  rw_start : w_start w2 = w_start w; rw_frames : Forall2 rel_sol (w_frames w) (w_frames w2); rw_dir : w_dir w2 = w_dir w;
  rw_out : Forall2 rel_output (w_out w) (w_out w2) }.
End Rel.
