(** Model of parallel runs (PetClaw) of the SharpClaw solver in one dimension: src/petclaw/sharpclaw/solver.py
    inherits dq_hyperbolic, dq and step from src/pyclaw/sharpclaw/solver.py; the ghost cells are filled by
    petclaw/state.py (ParallelModel) and the Courant number is reduced by petclaw/cfl.py.

    The stages of a Runge-Kutta step are those of SharpModel; as there, the kernel is used with time step 1 and its
    results are multiplied by dt. *)
From Verif Require Import Base TimeModel BCModel Classic1DModel SharpModel SemiModel SemiSpec RunModel ParallelModel.

(** sharpclaw/solver.py:750-825, the part of dq_hyperbolic after the boundary conditions, on ghosted arrays. *)
Definition semi_kernel (M : method) (C : settings) (qb ab : Z -> Z -> Q) : semiresult :=
  let ng := Z.of_nat (c_ng C) in
  let mx := ncells (c_bc C) in
  match M with
  | PyRecon eps lim cd =>
      let w := wave (solve_rps (c_rp C) (c_neq C) (c_naux C) 0 qb ab) in
      match py_reconstruct eps (c_neq C) (c_nw C) (mx + 2 * ng) lim cd qb w with
      | NotImplemented => SemiNotImplemented
      | Unassigned => SemiUnassigned
      | Edges e => let (d, cfl) := py_semi C e ab in DQ (fun m i => d m (i + ng)%Z) cfl
      end
  | FRecon r tf =>
      let fq := fun m i => qb m (i + ng - 1)%Z in
      let fa := fun m i => ab m (i + ng - 1)%Z in
      let (d, cfl) := f_semi tf C (r fq fa) fa in DQ (fun m i => d m (i + 1)%Z) cfl
  end.

(** sharpclaw/solver.py:710-825 dq_hyperbolic on the process that holds cells fst b .. snd b - 1.  [M] n is the
    reconstruction for a grid of n cells (the routines get the number of cells as an argument). *)
Definition local_dq (M : Z -> method) (C : settings) (q aux auxbc0 : arr Q) (b : Z * Z) : semiresult :=
  match par_apply_bcs Qopp (c_ng C) (Nat.ltb 0 (c_naux C)) (c_funs C) (Z.of_nat (c_neq C)) [c_bc C] [b] q aux auxbc0 with
  | Raised e => SemiBC e
  | Ok (qbc, auxbc) =>
      semi_kernel (M (snd b - fst b)%Z) (with_bc C (local_bc (c_bc C) b)) (fun m i => qbc m [i]) (fun m i => auxbc m [i])
  end.
(** All processes: each computes dq in its cells; petclaw/cfl.py:34-36 update_global_max: the maximum over the
    processes. *)
Fixpoint dq_collect (rs : list ((Z * Z) * semiresult)) : semiresult :=
  match rs with
  | [] => DQ (fun _ _ => 0) 0
  | (b, DQ a c) :: l =>
      match dq_collect l with
      | DQ a' c' => DQ (fun m i => if in_slice (fst b) (snd b) i then a m (i - fst b)%Z else a' m i) (pymax c c')
      | e => e
      end
  | (_, e) :: _ => e
  end.
Definition par_dq (M : Z -> method) (C : settings) (bs : list (Z * Z)) (q aux auxbc0 : arr Q) : semiresult :=
  dq_collect (map (fun b => (b, local_dq M C q aux auxbc0 b)) bs).

(** ** The arguments of dq in a step after the first slope *)
Section Points.
Context {Idx : Type}.
Notation V := (Idx -> Q).
Variables (f hook : Q -> V -> V) (d : Q).
Variables (n : nat) (a : nat -> nat -> Q) (c : nat -> Q).

(** sharpclaw/solver.py:412-416, 422-426: the arguments of dq in [k] passes of the loop, from [s] on. *)
Fixpoint loop_points (k : nat) (s : Q * V) : list (Q * V) :=
  match k with
  | O => []
  | S k => (fst s, hook (fst s) (snd s)) :: loop_points k (ssp104_stage f hook d s)
  end.
(** sharpclaw/solver.py:336-344: the argument of dq for the stage after the registers [regs]. *)
Definition rk_point (t : Q) (q : V) (regs : list V) : Q * V :=
  let i := length regs in
  (t + d * c i, fold_left (fun y j => vadd y (vscale (a i j) (nth j regs (fun _ => 0)))) (seq 0 i) (hook (t + d * c i) q)).
Fixpoint rk_points (k : nat) (k0 : V) (t : Q) (q : V) : list (Q * V) :=
  match k with
  | O => []
  | S k => rk_points k k0 t q ++ [rk_point t q (rk_registers f hook d k a c k0 t q)]
  end.

(** sharpclaw/solver.py:306-348, 391-430 *)
Definition stage_points (I : integrator) (k0 : V) (t : Q) (q : V) : list (Q * V) :=
  match I with
  | SSP22 => [(t + d, hook (t + d) (vadd q (vscale d k0)))]
  | SSP33 =>
      let r1 := hook (t + d) (vadd q (vscale d k0)) in
      [(t + d, r1);
       (t + (1 # 2) * d, hook (t + (1 # 2) * d) (vadd (vscale (3 # 4) q) (vscale (1 # 4) (vadd r1 (dq f d (t + d) r1)))))]
  | SSP104 =>
      let s0 := (t + d / 6, vadd q (vscale (d / 6) k0)) in
      let s1 := iterate 4 (ssp104_stage f hook d) s0 in
      let q' := vadd (vscale (1 / 25) q) (vscale (36 # 100) (snd s1)) in
      let s2 := (t + d / 3, vadd (vscale 15 q') (vscale (-(5)) (snd s1))) in
      loop_points 4 s0 ++ loop_points 5 s2
  | RK => rk_points (n - 1) k0 t q
  | _ => []
  end.
End Points.

(** ** Runs *)
(** Solutions as in SharpModel: functions of component and cell. *)
Notation cellfun := (Z * Z -> Q).
Notation sharp_sol X := (sol cellfun (arr Q * X)).

Definition slope_of (r : semiresult) : cellfun := fun mi => match r with DQ d _ => d (fst mi) (snd mi) | _ => 0 end.
Definition speed_of (r : semiresult) : Q := match r with DQ _ c => c | _ => 0 end.
(** The largest of the Courant numbers (cfl.py: update_global_max). *)
Definition qtop (l : list Q) : Q := fold_left pymax l 0.

Section Run.
Context {X : Type}.
(** dq_hyperbolic as a function of aux and q with time step 1, on the state itself ([ev0]) and on the registers. *)
Variables ev0 ev : arr Q -> cellfun -> semiresult.
(** dq_src divided by dt (the zero function when there is none) *)
Variable src : arr Q * X -> Q -> cellfun -> cellfun.
Variable hook : Q -> cellfun -> cellfun.
Variables (n : nat) (a : nat -> nat -> Q) (b c : nat -> Q).

(** sharpclaw/solver.py:532-542 dq, divided by dt *)
Definition field (e : arr Q -> cellfun -> semiresult) (x : arr Q * X) (t : Q) (u : cellfun) : cellfun :=
  vadd (slope_of (e (fst x) u)) (src x t u).
(** sharpclaw/solver.py:283-348 step *)
Definition run_slope : Q -> sharp_sol X -> cellfun * (arr Q * X) * Q :=
  rk_slope (field ev0) (fun so => speed_of (ev0 (fst (sx so)) (sq so))).
Definition run_stages (I : integrator) (d : Q) (k : cellfun) (so : sharp_sol X) : cellfun * (arr Q * X) * Q :=
  rk_stages (field ev) hook
    (fun d so => d * qtop (map (fun p => speed_of (ev (fst (sx so)) (snd p)))
                            (stage_points (field ev (sx so)) hook d n a c I k (st so) (sq so))))
    n a b c I d k so.
Definition sharp_run (I : integrator) (before : sharp_sol X -> cellfun * (arr Q * X)) (s : solver cellfun) (so : sharp_sol X)
    (tend : option Q) : result cellfun (arr Q * X) cellfun :=
  sharp_evolve run_slope (run_stages I) before s so tend.
End Run.

(** The serial program; [left] is whatever earlier evaluations left in the ghosted arrays. *)
Definition serial_ev (M : Z -> method) (C : settings) (left : arr Q -> cellfun -> arr Q * arr Q) (aux : arr Q) (u : cellfun) : semiresult :=
  dq_hyperbolic (M (ncells (c_bc C))) (unit_dt C) (as_arr u) aux (fst (left aux u)) (snd (left aux u)).
Definition sharp_serial_run {X} (M : Z -> method) (C : settings) (left : arr Q -> cellfun -> arr Q * arr Q)
    (src : arr Q * X -> Q -> cellfun -> cellfun) hook n a b c :=
  sharp_run (serial_ev M C left) (serial_ev M (register_settings (M (ncells (c_bc C))) C) left) src hook n a b c.
(** The processes that hold the boxes [bs]. *)
Definition par_ev (M : Z -> method) (C : settings) (bs : list (Z * Z)) (left : arr Q -> cellfun -> arr Q) (aux : arr Q) (u : cellfun) : semiresult :=
  par_dq M (unit_dt C) bs (as_arr u) aux (left aux u).
Definition sharp_par_run {X} (M : Z -> method) (C : settings) (bs : list (Z * Z)) (left : arr Q -> cellfun -> arr Q)
    (src : arr Q * X -> Q -> cellfun -> cellfun) hook n a b c :=
  sharp_run (par_ev M C bs left) (par_ev M (register_settings (M (ncells (c_bc C))) C) bs left) src hook n a b c.
