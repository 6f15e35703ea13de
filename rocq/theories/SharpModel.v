(** Model of the SharpClaw time integrators: src/pyclaw/sharpclaw/solver.py step, ssp22, ssp104,
    and the formulas of get_dt_new.  The loop around the multistep methods is in MultiModel.v.

    A solution q is a function from an index type (component and cell) to rationals.  [dq(state)] is
    [dt * f(t, q)] where f is the semi-discrete right-hand side: both dq_hyperbolic and dq_src are the
    change over a time step.  [hook] is before_step, called on a stage when call_before_step_each_stage
    is set (the identity otherwise). *)
From Verif Require Import Base.

Section Integrators.
Variable Idx : Type.
Notation V := (Idx -> Q).
Definition vadd (u v : V) : V := fun i => u i + v i.
Definition vscale (a : Q) (u : V) : V := fun i => a * u i.

Variable f : Q -> V -> V.          (* time, q *)
Variable hook : Q -> V -> V.       (* time, q *)
Variable dt : Q.

(** dq(state) of a register with time t and solution q: sharpclaw/solver.py:532-542 *)
Definition dq (t : Q) (q : V) : V := vscale dt (f t q).

(** sharpclaw/solver.py:306-307 *)
Definition euler (k0 : V) (t : Q) (q : V) : V := vadd q (vscale dt k0).

(** sharpclaw/solver.py:391-397 ssp22 *)
Definition ssp22 (k0 : V) (t : Q) (q : V) : V :=
  let r := hook (t + dt) (vadd q (vscale dt k0)) in
  vscale (1 # 2) (vadd (vadd q r) (dq (t + dt) r)).

(** sharpclaw/solver.py:312-323 *)
Definition ssp33 (k0 : V) (t : Q) (q : V) : V :=
  let r1 := hook (t + dt) (vadd q (vscale dt k0)) in
  let r2 := hook (t + (1 # 2) * dt)
              (vadd (vscale (3 # 4) q) (vscale (1 # 4) (vadd r1 (dq (t + dt) r1)))) in
  vadd (vscale (1 # 3) q) (vscale (2 # 3) (vadd r2 (dq (t + (1 # 2) * dt) r2))).

(** The body of the loops at sharpclaw/solver.py:412-416 and 422-426, on (s1.t, s1.q) *)
Definition ssp104_stage (s : Q * V) : Q * V :=
  let r := hook (fst s) (snd s) in
  (fst s + dt / 6, vadd r (vscale (1 / 6) (dq (fst s) r))).
Fixpoint iterate {A} (n : nat) (g : A -> A) (x : A) : A :=
  match n with O => x | S n => g (iterate n g x) end.

(** sharpclaw/solver.py:400-430 ssp104 *)
Definition ssp104 (k0 : V) (t : Q) (q : V) : V :=
  let s1 := iterate 4 ssp104_stage (t + dt / 6, vadd q (vscale (dt / 6) k0)) in
  let q' := vadd (vscale (1 / 25) q) (vscale (36 # 100) (snd s1)) in
  let s2 := iterate 4 ssp104_stage
              (t + dt / 3, vadd (vscale 15 q') (vscale (-(5)) (snd s1))) in
  let r := hook (fst s2) (snd s2) in
  vadd q' (vadd (vscale (6 # 10) r) (vscale (1 # 10) (dq (fst s2) r))).

(** sharpclaw/solver.py:328-348 the integrator 'RK' with user coefficients.  The stage loop keeps the
    registers computed so far (register j holds dt*f of stage j); the hook is called before the other
    stages are added. *)
Definition rk_stage (a : nat -> nat -> Q) (c : nat -> Q) (t : Q) (q : V) (regs : list V) : V :=
  let i := length regs in
  let y0 := hook (t + dt * c i) q in
  let y := fold_left (fun y j => vadd y (vscale (a i j) (nth j regs (fun _ => 0)))) (seq 0 i) y0 in
  dq (t + dt * c i) y.
Fixpoint rk_registers (n : nat) (a : nat -> nat -> Q) (c : nat -> Q) (k0 : V) (t : Q) (q : V) : list V :=
  match n with
  | O => [vscale dt k0]
  | S n => let regs := rk_registers n a c k0 t q in regs ++ [rk_stage a c t q regs]
  end.
Definition rk_user (stages : nat) (a : nat -> nat -> Q) (b c : nat -> Q) (k0 : V) (t : Q) (q : V) : V :=
  let regs := rk_registers (stages - 1) a c k0 t q in
  fold_left (fun y j => vadd y (vscale (b j) (nth j regs (fun _ => 0)))) (seq 0 stages) q.

(** Python list indexing, negative indices counting from the end; [None] is IndexError. *)
Definition pyindex {A} (l : list A) (i : Z) : option A :=
  let n := Z.of_nat (length l) in
  if (Z.leb (- n) i && Z.ltb i n)%bool then nth_error l (Z.to_nat (if Z.ltb i 0 then i + n else i))
  else None.
Definition bind2 {A B C} (x : option A) (y : option B) (g : A -> B -> option C) : option C :=
  match x, y with Some a, Some b => g a b | _, _ => None end.
Fixpoint qsum (l : list Q) : Q := match l with [] => 0 | x :: l => x + qsum l end.

(** sharpclaw/solver.py:357-363 SSPLMMk2 once enough steps are saved.  [dts] is prev_dt_values, [regs] the
    registers (oldest first); [None] for an IndexError. *)
Definition ssplmm2 (steps : Z) (dts : list Q) (regs : list V) (k0 : V) (q : V) : option V :=
  let omega := qsum (tl dts) / dt in
  let r := (omega - 1) / omega in
  let delta := 1 / (omega * omega) in
  let beta := (omega + 1) / omega in
  match pyindex regs (- steps) with
  | None => None
  | Some old => Some (vadd (vscale beta (vadd (vscale r q) (vscale dt k0))) (vscale delta old))
  end.
(** sharpclaw/solver.py:365-375 SSPLMMk3; [fs] is prev_dq_dt_values *)
Definition ssplmm3 (steps : Z) (dts : list Q) (regs fs : list V) (q : V) : option V :=
  let om := qsum (tl dts) / dt in
  let omk := om + 1 in
  let r := (om - 2) / om in
  let delta0 := (4 * omk - om * om) / (om * om * om) in
  let beta0 := omk / (om * om) in
  let betak := omk * omk / (om * om) in
  bind2 (pyindex fs (-1)) (pyindex regs (- steps)) (fun k0 old =>
  match pyindex fs (- steps) with
  | None => None
  | Some fold_ =>
      Some (vadd (vadd (vscale betak (vadd (vscale r q) (vscale dt k0)))
                       (vscale (r * beta0 + delta0) old))
                 (vscale (beta0 * dt) fold_))
  end).
(** sharpclaw/solver.py:381-384 LMM: the last entries first, then the loop over range(lmm_steps-1) *)
Definition lmm_term (alpha beta : list Q) (regs fs : list V) (i : Z) : option V :=
  bind2 (pyindex alpha i) (pyindex regs i) (fun a r =>
  bind2 (pyindex beta i) (pyindex fs i) (fun b k => Some (vadd (vscale a r) (vscale (b * dt) k)))).
Definition lmm (steps : Z) (alpha beta : list Q) (regs fs : list V) : option V :=
  fold_left (fun acc i => bind2 acc (lmm_term alpha beta regs fs i) (fun y x => Some (vadd y x)))
    (map Z.of_nat (seq 0 (Z.to_nat (steps - 1)))) (lmm_term alpha beta regs fs (-1)).
End Integrators.
Arguments vadd {Idx}. Arguments vscale {Idx}. Arguments dq {Idx}. Arguments euler {Idx}.
Arguments ssp22 {Idx}. Arguments ssp33 {Idx}. Arguments ssp104 {Idx}. Arguments ssp104_stage {Idx}.
Arguments rk_stage {Idx}. Arguments rk_registers {Idx}. Arguments rk_user {Idx}.
Arguments ssplmm2 {Idx}. Arguments ssplmm3 {Idx}. Arguments lmm {Idx}. Arguments lmm_term {Idx}.

(** The values of solver.time_integrator *)
Inductive integrator := Euler | SSP22 | SSP33 | SSP104 | RK | SSPLMMk2 | SSPLMMk3 | LMM.

(** sharpclaw/solver.py:591-619 _allocate_registers: the number of registers; [None] for 'Unrecognized
    time integrator'.  [nb] is len(b), [nalpha] is len(alpha). *)
Definition nregisters (i : integrator) (nb nalpha lmm_steps : Z) : option Z :=
  match i with
  | Euler => Some 0%Z
  | SSP33 => Some 1%Z
  | SSP104 => Some 1%Z
  | RK => Some (nb + 1)%Z
  | SSPLMMk2 => Some lmm_steps
  | SSPLMMk3 => Some lmm_steps
  | LMM => Some nalpha
  | SSP22 => None
  end.

(** np.min of a list that is not empty *)
Fixpoint qminimum (x : Q) (l : list Q) : Q := match l with [] => x | y :: l => qminimum (pymin x y) l end.

(** sharpclaw/solver.py:674-679 the automatic step of SSPLMMk2 (p = 2) and SSPLMMk3 (p = 3) *)
Definition ssplmm_dt (p : Q) (dts dtFEs : list Q) : Q :=
  match dtFEs with
  | [] => 0
  | x :: l =>
      let mu := qminimum x l in
      let H := qsum (tl dts) in
      H * mu / (H + (p - 1) * mu)
  end.
