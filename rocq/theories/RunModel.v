(** Whole programs: a controller that runs a solver with its kernel.  TimeModel and ControllerModel take the
    hyperbolic step as a parameter; here it is the one of a concrete solver class.

    Simplifications: the data visible to the callbacks besides q is the aux array; what the ghosted arrays qbc and
    auxbc contain before a step is an arbitrary function ([stale]) of the step size and the solution. An exception
    raised inside the step (boundary conditions, the stop statement of the Fortran kernel) is not passed through the
    time loop: then the step does nothing here.  The theorems have hypotheses under which there is none. *)
From Verif Require Import Base BCModel TimeModel LimiterModel Classic1DModel SharpModel SemiModel SemiSpec SweepModel UnsplitModel MSemiModel MSemiSpec.

(** The attribute dt of the solver, read by step_hyperbolic (classic/solver.py:373, 393, 575-583). *)
Definition with_dt (C : settings) (d : Q) : settings :=
  mkSet (c_neq C) (c_nw C) (c_naux C) (c_ng C) (c_fwave C) (c_order C) (c_mthlim C) (c_rp C) (c_dx C) d (c_capa C) (c_bc C) (c_funs C).
Definition with_mdt (S : msettings) (d : Q) : msettings :=
  mkMSet (n_neq S) (n_nw S) (n_naux S) (n_ng S) (n_fwave S) (n_order S) (n_mthlim S) (n_rpn S) (n_rpt S) (n_delta S) d (n_capa S)
    (n_bcs S) (n_funs S).

(** classic/solver.py:299-437 ClawSolver1D.step_hyperbolic as the callback of ClawSolver.step. *)
Definition hyper_1d (pow : Q -> Q -> Q) (undef : Q -> Q -> Z -> Q) (L : lang) (C : settings)
    (stale : Q -> sol (arr Q) (arr Q) -> arr Q * arr Q) (d : Q) (so : sol (arr Q) (arr Q)) : arr Q * arr Q * Q :=
  match step_hyperbolic pow undef L (with_dt C d) (sq so) (sx so) (fst (stale d so)) (snd (stale d so)) with
  | Stepped q' c => (fun m ix => q' m (hd 0%Z ix), sx so, c)
  | _ => (sq so, sx so, 0)
  end.
(** classic/solver.py:551-591, 648-706 step_hyperbolic in more dimensions, for one of the kernels [step]. *)
Definition hyper_md (step : msettings -> arr Q -> arr Q -> arr Q -> arr Q -> mresult) (S : msettings)
    (stale : Q -> sol (arr Q) (arr Q) -> arr Q * arr Q) (d : Q) (so : sol (arr Q) (arr Q)) : arr Q * arr Q * Q :=
  match step (with_mdt S d) (sq so) (sx so) (fst (stale d so)) (snd (stale d so)) with
  | MStepped q' c => (q', sx so, c)
  | _ => (sq so, sx so, 0)
  end.

(** sharpclaw/solver.py:283-348 SharpClawSolver.step with a Runge-Kutta integrator: the slope of the first stage, computed
    by [f0] on the state itself, and the stages, computed by [f] on registers (see [register_settings]).  [speed] is the
    Courant number per unit step that the kernel reports for the first slope, [later] the largest one of the stages. *)
Section RungeKutta.
Context {Idx DX : Type}.
Variables f0 f : DX -> Q -> (Idx -> Q) -> Idx -> Q.
Variable hook : Q -> (Idx -> Q) -> Idx -> Q.                  (* before_step, called for the stages *)
Variable speed : sol (Idx -> Q) DX -> Q.
Variable later : Q -> sol (Idx -> Q) DX -> Q.
(** rk_coefficients: number of stages, a, b, c *)
Variables (n : nat) (a : nat -> nat -> Q) (b c : nat -> Q).

Definition rk_slope (d : Q) (so : sol (Idx -> Q) DX) : (Idx -> Q) * DX * Q := (f0 (sx so) (st so) (sq so), sx so, d * speed so).
(** The linear multistep methods are in MultiModel; here they would do nothing. *)
Definition rk_stages (I : integrator) (d : Q) (k : Idx -> Q) (so : sol (Idx -> Q) DX) : (Idx -> Q) * DX * Q :=
  let g := f (sx so) in
  (match I with
   | Euler => euler d k (st so) (sq so)
   | SSP22 => ssp22 g hook d k (st so) (sq so)
   | SSP33 => ssp33 g hook d k (st so) (sq so)
   | SSP104 => ssp104 g hook d k (st so) (sq so)
   | RK => rk_user g hook d n a b c k (st so) (sq so)
   | _ => sq so
   end, sx so, later d so).
End RungeKutta.
