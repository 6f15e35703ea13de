(** WENO reconstruction of order 2k-1 (Jiang and Shu 1996; Balsara and Shu 2000), from the mathematical definition. The
    cell under consideration is [-1/2, 1/2], its neighbours are [j-1/2, j+1/2]. *)
From Verif Require Import Base.
Open Scope Q_scope.

(** Polynomials: lists of coefficients, constant term first *)
Fixpoint value (p : list Q) (x : Q) : Q := match p with [] => 0 | c :: r => c + x * value r x end.
Fixpoint deriv_from (n : Z) (p : list Q) : list Q :=
  match p with [] => [] | c :: r => (inject_Z n * c) :: deriv_from (n + 1) r end.
Definition deriv (p : list Q) : list Q := match p with [] => [] | _ :: r => deriv_from 1 r end.
Fixpoint prim_from (n : Z) (p : list Q) : list Q :=
  match p with [] => [] | c :: r => (c / inject_Z n) :: prim_from (n + 1) r end.
Definition primitive (p : list Q) : list Q := 0 :: prim_from 1 p.
Fixpoint add (p r : list Q) : list Q :=
  match p, r with
  | [], _ => r
  | _, [] => p
  | a :: p', b :: r' => (a + b) :: add p' r'
  end.
Fixpoint mul (p r : list Q) : list Q :=
  match p with [] => [] | a :: p' => add (map (Qmult a) r) (0 :: mul p' r) end.

Definition integral (p : list Q) (a b : Q) : Q := value (primitive p) b - value (primitive p) a.
Definition average (p : list Q) (j : Z) : Q := integral p (inject_Z j - (1 # 2)) (inject_Z j + (1 # 2)).
(** The indicator of smoothness: the integrals over the cell of the squares of all derivatives *)
Definition square_integral (p : list Q) : Q := integral (mul p p) (- (1 # 2)) (1 # 2).
Fixpoint derivatives (n : nat) (p : list Q) : list (list Q) :=
  match n with O => [] | S n => deriv p :: derivatives n (deriv p) end.
Definition qsum (l : list Q) : Q := fold_right Qplus 0 l.
Definition smoothness (p : list Q) : Q := qsum (map square_integral (derivatives (length p - 1) p)).

(** p has k coefficients and the averages of the data around cell i in the cells i+lo, ..., i+lo+k-1 *)
Definition fits (k : nat) (p : list Q) (q : Z -> Q) (i lo : Z) : Prop :=
  length p = k /\ forall j, (lo <= j < lo + Z.of_nat k)%Z -> q (i + j)%Z == average p j.
(** The polynomials of the k stencils of k cells that contain cell i *)
Definition stencils (k : nat) (ps : list (list Q)) (q : Z -> Q) (i : Z) : Prop :=
  length ps = k /\ forall r, (r < k)%nat -> fits k (nth r ps []) q i (- Z.of_nat r).
(** The ideal weights at x: positive, and the average of the values of the stencils with these weights is the value of
    the polynomial of degree 2k-2 through all 2k-1 cells. *)
Definition weighted (ds : list Q) (vs : list Q) : Q := qsum (map (fun dv => fst dv * snd dv) (combine ds vs)).
Definition ideal (k : nat) (x : Q) (ds : list Q) : Prop :=
  length ds = k /\ Forall (fun d => 0 < d) ds /\ qsum ds == 1 /\
  forall p ps q i, fits (2 * k - 1) p q i (1 - Z.of_nat k) -> stencils k ps q i ->
    weighted ds (map (fun p => value p x) ps) == value p x.
(** The WENO value at x *)
Definition weight (eps d : Q) (p : list Q) : Q := d / ((eps + smoothness p) * (eps + smoothness p)).
Definition weno_value (eps x : Q) (ds : list Q) (ps : list (list Q)) : Q :=
  let ws := map (fun dp => weight eps (fst dp) (snd dp)) (combine ds ps) in
  weighted ws (map (fun p => value p x) ps) / qsum ws.
