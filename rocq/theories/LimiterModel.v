(** Model of the wave limiters: src/pyclaw/limiters/tvd.py (Python) and src/pyclaw/classic/philim.f90
    (Fortran).  A Python limiter takes the vectors of ratios r and Courant numbers cfl of one wave
    family and returns a vector.  Division by zero is totalised by Coq (x/0 = 0) where numpy gives
    inf or nan; theorems about the affected limiters (11, 19-22) exclude those arguments. *)
From Verif Require Import Base.

Definition pymin3 a b c := pymin (pymin a b) c.
Definition pymax3 a b c := pymax (pymax a b) c.

(** tvd.py:141-152 minmod_limiter *)
Definition minmod (r cfl : Q) : Q := pymax 0 (pymin 1 r).
(** tvd.py:155-170 superbee_limiter: the array b is created by np.zeros and only b[1] is set, so the
    second minimum is min(0, r). *)
Definition superbee_py (r cfl : Q) : Q := pymax3 0 (pymin 1 (2 * r)) (pymin 0 r).
(** tvd.py:452 entry 3 *)
Definition vanleer (r cfl : Q) : Q := (r + Qabs r) / (1 + Qabs r).
(** tvd.py:172-185 mc_limiter *)
Definition mc (r cfl : Q) : Q := pymax 0 (pymin3 ((1 + r) / 2) 2 (2 * r)).
(** tvd.py:454 entry 5 *)
Definition beam_warming (r cfl : Q) : Q := r.
(** tvd.py:455 entry 6 *)
Definition fromm (r cfl : Q) : Q := (1 # 2) * (1 + r).
(** tvd.py:456 entry 7 *)
Definition albada2 (r cfl : Q) : Q := (r * r + r) / (1 + r * r).
(** tvd.py:457 entry 8 *)
Definition albada3 (r cfl : Q) : Q :=
  (1 # 2) * (1 + r) * (1 - Qabs (1 - r) * Qabs (1 - r) * Qabs (1 - r) / (1 + Qabs r * Qabs r * Qabs r)).
(** tvd.py:187-199 van_leer_klein_sharpening_limiter *)
Definition vanleer_klein (r cfl : Q) : Q :=
  let rcorr := pymax r (1 # 100000) in
  let sharg := pymin r (1 / rcorr) in
  let sharp := 1 + sharg * (1 - sharg) * (1 - sharg * sharg) in
  (r + Qabs r) / (1 + Qabs r) * sharp.
(** tvd.py:459 entry 10 *)
Definition roe_third (r cfl : Q) : Q := 1 + (1 + cfl) / 3 * (r - 1).
(** tvd.py:201-219 arora_roe *)
Definition arora_roe (r cfl : Q) : Q :=
  let caut := 99 # 100 in
  let s1 := caut * 2 / cfl in
  let s2 := (1 + cfl) / 3 in
  let phimax := caut * 2 / (1 - cfl) in
  pymax 0 (pymin3 (s1 * r) (1 + s2 * (r - 1)) phimax).
(** tvd.py:221-251 theta_limiter *)
Definition theta_limiter (theta r cfl : Q) : Q :=
  let cfmod1 := pymax (1 # 1000) cfl in
  let cfmod2 := pymin (999 # 1000) cfl in
  let s1 := 2 / cfmod1 in
  let s2 := (1 + cfl) / 3 in
  let phimax := 2 / (1 - cfmod2) in
  let left := pymax ((1 - theta) * s1) (1 + s2 * (r - 1)) in
  let middle := pymax ((1 - theta) * phimax * r) (theta * s1 * r) in
  pymin3 left middle (theta * phimax).
(** tvd.py:253-273 cfl_superbee *)
Definition cfl_superbee (r cfl : Q) : Q :=
  let cfmod1 := pymax (1 # 1000) cfl in
  let cfmod2 := pymin (999 # 1000) cfl in
  pymax3 0 (pymin 1 (2 * r / cfmod1)) (pymin (2 / (1 - cfmod2)) r).
(** tvd.py:276-301 cfl_superbee_theta (theta = 0.95) *)
Definition cfl_superbee_theta (theta r cfl : Q) : Q :=
  let cfmod1 := pymax (1 # 1000) cfl in
  let cfmod2 := pymin (999 # 1000) cfl in
  let s1 := theta * 2 / cfmod1 in
  let phimax := theta * 2 / (1 - cfmod2) in
  let ultra := pymax 0 (pymin (s1 * r) phimax) in
  pymin ultra (pymax 1 r).

(** np.min / np.max of a whole array, without an axis argument.  numpy raises on an empty array; the
    model returns 0 there (the solver always passes at least one interface). *)
Definition amin (l : list Q) : Q := match l with [] => 0 | x :: l => fold_left pymin l x end.
Definition amax (l : list Q) : Q := match l with [] => 0 | x :: l => fold_left pymax l x end.

Fixpoint map2 {A B C} (f : A -> B -> C) (l : list A) (m : list B) : list C :=
  match l, m with
  | a :: l, b :: m => f a b :: map2 f l m
  | _, _ => []
  end.

(** A scalar result is broadcast to all interfaces by the caller (tvd.py:135-137). *)
Definition broadcast {A} (r : list A) (v : Q) : list Q := map (fun _ => v) r.

(** tvd.py:303-336 beta_limiter: the inner minima and maxima are taken over the whole arrays. *)
Definition beta_limiter (theta beta : Q) (r cfl : list Q) : list Q :=
  let s1 := map (fun c => theta * 2 / pymax (1 # 1000) c) cfl in
  let s2 := map (fun c => (1 + c) / 3) cfl in
  let phimax := map (fun c => theta * 2 / (1 - pymin (999 # 1000) c)) cfl in
  let b1 := amin (map2 Qmult s1 r ++ phimax) in
  let ultra := amax (broadcast r 0 ++ broadcast r b1) in
  let a0 := map2 (fun s x => 1 + (s - beta / 2) * (x - 1)) s2 r in
  let a1 := map2 (fun s x => 1 + (s + beta / 2) * (x - 1)) s2 r in
  let m := amin (broadcast r ultra ++ broadcast r (amax (a0 ++ a1))) in
  broadcast r (amax (broadcast r 0 ++ broadcast r m)).

(** tvd.py:339-358 hyperbee_limiter; [pow] is numpy's real power, which is not rational *)
Definition hyperbee (pow : Q -> Q -> Q) (r cfl : Q) : Q :=
  let cfmod1 := pymax (1 # 1000) cfl in
  let cfmod2 := pymin (999 # 1000) cfl in
  if qltb r 0 then 0
  else if qltb (Qabs (r - 1)) (1 # 1000000) then 1
  else
    let rmin := r - 1 in
    let rdur := r / rmin in
    2 * rdur * (cfl * rmin + 1 - pow r cfl) / (cfmod1 * (1 - cfmod2) * rmin).

(** tvd.py:360-377 superpower_limiter (caut = 1) *)
Definition superpower (pow : Q -> Q -> Q) (r cfl : Q) : Q :=
  let s2 := (1 + cfl) / 3 in
  let s3 := 1 - s2 in
  let pp := if qleb r 1 then Qabs (2 / cfl) * 2 * s3 else 2 / (1 - cfl) * 2 * s2 in
  let rabs := Qabs r in
  let rfrac := Qabs ((1 - rabs) / (1 + rabs)) in
  let signum := if qltb 0 r then 1 else 0 in
  signum * (s3 + s2 * r) * (1 - pow rfrac pp).

(** tvd.py:379-403 cada_torrilhon_limiter (epsilon = 1e-3).  The clipped cfl of line 390 is overwritten
    at line 392, where a[0] still holds the unclipped vector; line 398 multiplies the even entries of
    row 1 instead of rows 1 and 2. *)
Fixpoint scale_even (k : Q) (even : bool) (l : list Q) : list Q :=
  match l with
  | [] => []
  | x :: l => (if even then k * x else x) :: scale_even k (negb even) l
  end.
Definition cada_torrilhon (eps : Q) (r cfl : list Q) : list Q :=
  let c := amax (cfl ++ broadcast r (1 # 20)) in
  let b0 := map (fun x => 1 + (1 + c) / 3 * (x - 1)) r in
  let b1 := scale_even (1 - eps) true (map (fun x => 2 * Qabs x / (c + eps)) r) in
  let b2 := map (fun x => (8 - 2 * c) / (Qabs x * ((c - 1 - eps) * (c - 1 - eps)))) r in
  let a1 := map (fun x => - (2) * (c * c - 3 * c + 8) * (1 - eps) / (Qabs x * (c * c * c - c * c - c + 1 + eps))) r in
  broadcast r (amax (broadcast r (amin (b0 ++ b1 ++ b2)) ++ a1)).

(** tvd.py:405-419 cada_torrilhon_limiter_nonlinear *)
Definition cada_torrilhon_nonlinear (r cfl : list Q) : list Q :=
  let a0 := map2 (fun x c => 1 + (1 + c) / 3 * (x - 1)) r cfl in
  let a1 := map (fun x => 2 * Qabs x / ((6 # 10) + Qabs x)) r in
  let a2 := map (fun x => 5 / Qabs x) r in
  let b1 := map (fun x => - (3) / Qabs x) r in
  broadcast r (amax (broadcast r (amin (a0 ++ a1 ++ a2)) ++ b1)).

(** tvd.py:421-444 upper_bound_limiter (theta = 1) *)
Definition upper_bound (theta : Q) (r cfl : list Q) : list Q :=
  let s1 := map (fun c => theta * 2 / pymax (1 # 1000) c) cfl in
  let phimax := map (fun c => theta * 2 / (1 - pymin (999 # 1000) c)) cfl in
  broadcast r (amax (broadcast r 0 ++ broadcast r (amin (map2 Qmult s1 r ++ phimax)))).

(** tvd.py:450-472 the table limiter_functions; [None] for a number not in the table *)
Definition limiter_functions (pow : Q -> Q -> Q) (n : Z) : option (list Q -> list Q -> list Q) :=
  match n with
  | 1%Z => Some (map2 minmod)
  | 2%Z => Some (map2 superbee_py)
  | 3%Z => Some (map2 vanleer)
  | 4%Z => Some (map2 mc)
  | 5%Z => Some (map2 beam_warming)
  | 6%Z => Some (map2 fromm)
  | 7%Z => Some (map2 albada2)
  | 8%Z => Some (map2 albada3)
  | 9%Z => Some (map2 vanleer_klein)
  | 10%Z => Some (map2 roe_third)
  | 11%Z => Some (map2 arora_roe)
  | 12%Z => Some (map2 (theta_limiter (95 # 100)))
  | 13%Z => Some (map2 (theta_limiter (3 # 4)))
  | 14%Z => Some (map2 (theta_limiter (1 # 2)))
  | 15%Z => Some (map2 cfl_superbee)
  | 16%Z => Some (map2 (cfl_superbee_theta (95 # 100)))
  | 17%Z => Some (beta_limiter 0 (2 # 3))
  | 18%Z => Some (beta_limiter (95 # 100) (2 # 3))
  | 19%Z => Some (map2 (hyperbee pow))
  | 20%Z => Some (map2 (superpower pow))
  | 21%Z => Some (cada_torrilhon (1 # 1000))
  | 22%Z => Some cada_torrilhon_nonlinear
  | 23%Z => Some (upper_bound 1)
  | _ => None
  end.

(** philim.f90 philim(a,b,meth).  For any other [meth] the Fortran function value is undefined: [None]. *)
Definition philim (a b : Q) (meth : Z) : option Q :=
  let r := b / a in
  match meth with
  | 1%Z => Some (pymax 0 (pymin 1 r))
  | 2%Z => Some (pymax3 0 (pymin 1 (2 * r)) (pymin 2 r))
  | 3%Z => Some ((r + Qabs r) / (1 + Qabs r))
  | 4%Z => Some (pymax 0 (pymin3 ((1 + r) / 2) 2 (2 * r)))
  | 5%Z => Some r
  | _ => None
  end.
