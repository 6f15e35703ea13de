(** Specification vocabulary for time integrators. *)
From Verif Require Import Base SharpModel.

(** Sum of g 0, ..., g (n-1). *)
Fixpoint sum_n (n : nat) (g : nat -> Q) : Q := match n with O => 0 | S n => sum_n n g + g n end.

Section Spec.
Variable Idx : Type.
Notation V := (Idx -> Q).
Definition veq (u v : V) : Prop := forall i, u i == v i.

(** f depends only on the values of its arguments. *)
Definition extensional (f : Q -> V -> V) : Prop :=
  forall t t' u v, t == t' -> veq u v -> veq (f t u) (f t' v).

(** A Runge-Kutta method: coefficients of the Butcher tableau. *)
Record tableau := mkTab { stages : nat; ta : nat -> nat -> Q; tb : nat -> Q; tc : nat -> Q }.

(** [q'] is the result of one step of the method T for q' = f(t,q): the slopes k_i satisfy
    k_i = f(t + c_i dt, q + dt sum_j a_ij k_j), and q' = q + dt sum_i b_i k_i. *)
Definition rk_step (T : tableau) (f : Q -> V -> V) (dt t : Q) (q q' : V) : Prop :=
  exists k : nat -> V,
    (forall i, (i < stages T)%nat ->
       veq (k i) (f (t + tc T i * dt) (fun x => q x + dt * sum_n (stages T) (fun j => ta T i j * k j x))))
    /\ veq q' (fun x => q x + dt * sum_n (stages T) (fun i => tb T i * k i x)).

(** The method is explicit: a_ij = 0 for j >= i. *)
Definition explicit (T : tableau) : Prop :=
  forall i j, (i < stages T)%nat -> (i <= j)%nat -> (j < stages T)%nat -> ta T i j == 0.

(** Convex set of solutions (closed under pointwise equality). *)
Definition convex (K : V -> Prop) : Prop :=
  (forall u v, veq u v -> K u -> K v) /\
  (forall a b u v, 0 <= a -> 0 <= b -> a + b == 1 -> K u -> K v -> K (fun i => a * u i + b * v i)).
(** A forward-Euler step up to size h keeps K. *)
Definition euler_keeps (K : V -> Prop) (f : Q -> V -> V) (h : Q) : Prop :=
  forall d t q, 0 <= d -> d <= h -> K q -> K (fun i => q i + d * f t q i).
End Spec.
Arguments veq {Idx}. Arguments extensional {Idx}. Arguments rk_step {Idx}. Arguments convex {Idx}.
Arguments euler_keeps {Idx}.

(** The order conditions of Runge-Kutta methods up to order 4 (one equation per rooted tree), for
    tableaux with c_i = sum_j a_ij. *)
Section Order.
Variable T : tableau.
Notation s := (stages T).
Notation a := (ta T).
Notation b := (tb T).
Notation c := (tc T).
Notation "'sum' f" := (sum_n s f) (at level 30).
Definition row_sums : Prop := forall i, (i < s)%nat -> c i == sum_n s (fun j => a i j).
Definition order1 : Prop := sum_n s b == 1.
Definition order2 : Prop := sum_n s (fun i => b i * c i) == 1 # 2.
Definition order3 : Prop :=
  sum_n s (fun i => b i * (c i * c i)) == 1 # 3
  /\ sum_n s (fun i => b i * sum_n s (fun j => a i j * c j)) == 1 # 6.
Definition order4 : Prop :=
  sum_n s (fun i => b i * (c i * c i * c i)) == 1 # 4
  /\ sum_n s (fun i => b i * c i * sum_n s (fun j => a i j * c j)) == 1 # 8
  /\ sum_n s (fun i => b i * sum_n s (fun j => a i j * (c j * c j))) == 1 # 12
  /\ sum_n s (fun i => b i * sum_n s (fun j => a i j * sum_n s (fun l => a j l * c l))) == 1 # 24.
End Order.

(** The tableaux of the named methods. *)
Definition lower_part (rows : list (list Q)) : nat -> nat -> Q := fun i j => nth j (nth i rows []) 0.
Definition tab_euler := mkTab 1 (fun _ _ => 0) (fun _ => 1) (fun _ => 0).
Definition tab_ssp22 := mkTab 2 (lower_part [[]; [1]]) (fun _ => 1 # 2) (fun i => nth i [0; 1] 0).
Definition tab_ssp33 := mkTab 3 (lower_part [[]; [1]; [1 # 4; 1 # 4]])
  (fun i => nth i [1 # 6; 1 # 6; 2 # 3] 0) (fun i => nth i [0; 1; 1 # 2] 0).
(** Ketcheson's SSP(10,4): Gottlieb, Ketcheson, Shu, "Strong stability preserving Runge-Kutta and
    multistep time discretizations", ch. 6. *)
Definition tab_ssp104 :=
  let s := 1 # 6 in let f := 1 # 15 in
  mkTab 10 (lower_part
    [ []; [s]; [s; s]; [s; s; s]; [s; s; s; s];
      [f; f; f; f; f]; [f; f; f; f; f; s]; [f; f; f; f; f; s; s]; [f; f; f; f; f; s; s; s];
      [f; f; f; f; f; s; s; s; s] ])
    (fun _ => 1 # 10)
    (fun i => nth i [0; 1 # 6; 1 # 3; 1 # 2; 2 # 3; 1 # 3; 1 # 2; 2 # 3; 5 # 6; 1] 0).
