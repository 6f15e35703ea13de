(** Model of the remaining reconstruction routines of src/pyclaw/sharpclaw/reconstruct.f90: weno5_char, weno5_trans,
    weno5_wave, weno5_fwave, tvd2, tvd2_char and tvd2_wave.

    The dummy arrays start at index 1 and have mx2 = mx+2*num_ghost cells; components and waves are numbered from
    0 here.  Interface i lies between cells i-1 and i.  Elements read outside an array are whatever the function
    has there; elements not assigned keep the values of [ql0], [qr0] (or [hh0]).  The
    single-precision constant 1.e-14 is taken as 10^-14. *)
From Verif Require Import Base Classic1DModel WenoModel SemiModel.

Section Routines.
Variable eps : Q.                        (* epweno *)
Variables (neq nw : nat) (ng mx2 : Z).
Variables (ql0 qr0 : Z -> Z -> Q).

(** reconstruct.f90:266-284, 364-382, 455-474: the nonlinear correction at one interface from the differences
    h(d) at the interfaces i+d; k = im. *)
Definition correction (k : Z) (h : Z -> Q) : Q :=
  let im := inject_Z k in
  let t1 := im * (h (- 2 * k)%Z - h (- k)%Z) in
  let t2 := im * (h (- k)%Z - h 0%Z) in
  let t3 := im * (h 0%Z - h k) in
  let tt1 := 13 * (t1 * t1) + 3 * ((h (- 2 * k)%Z - 3 * h (- k)%Z) * (h (- 2 * k)%Z - 3 * h (- k)%Z)) in
  let tt2 := 13 * (t2 * t2) + 3 * ((h (- k)%Z + h 0%Z) * (h (- k)%Z + h 0%Z)) in
  let tt3 := 13 * (t3 * t3) + 3 * ((3 * h 0%Z - h k) * (3 * h 0%Z - h k)) in
  let tt1 := (eps + tt1) * (eps + tt1) in
  let tt2 := (eps + tt2) * (eps + tt2) in
  let tt3 := (eps + tt3) * (eps + tt3) in
  let s1 := tt2 * tt3 in
  let s2 := 6 * tt1 * tt3 in
  let s3 := 3 * tt1 * tt2 in
  let t0 := 1 / (s1 + s2 + s3) in
  let s1 := s1 * t0 in
  let s3 := s3 * t0 in
  (s1 * (t2 - t1) + ((1 # 2) * s3 - (1 # 4)) * (t3 - t2)) / 3.

(** reconstruct.f90:232, 393-394, 432: the part that does not depend on the stencil *)
Definition centre (q : Z -> Q) (i : Z) : Q :=
  (- q (i - 2)%Z + 7 * (q (i - 1)%Z + q i) - q (i + 1)%Z) / 12.

(** ** weno5_char, reconstruct.f90:201-299.  [evl] p m i, [evr] m p i: left and right eigenvectors.  The array hh is
    computed for num_ghost+1 .. mx2-2 and used from num_ghost on. *)
Definition char_h (evl : Z -> Z -> Z -> Q) (hh0 : Z -> Z -> Z -> Q) (q : Z -> Z -> Q) (p i d : Z) : Q :=
  if in_slice (ng + 1) (mx2 - 1) i
  then zsum 0 neq (fun m => evl p m i * (q m (i + d)%Z - q m (i + d - 1)%Z)) else hh0 p i d.
(** Lines 229-234 and 236-296 *)
Definition weno5_char (evl evr hh0 : Z -> Z -> Z -> Q) (q : Z -> Z -> Q) : edges :=
  let side k m i := centre (q m) i + zsum 0 neq (fun p => evr m p i * correction k (char_h evl hh0 q p i)) in
  (fun m i => if in_slice ng (mx2 - ng + 2) i then side (-1)%Z m i else ql0 m i,
   fun m i => if in_slice ng (mx2 - ng + 2) (i + 1) then side 1%Z m (i + 1)%Z else qr0 m i).

(** ** weno5_trans, reconstruct.f90:302-406.  gg: wave strengths (331-338); line 349 takes evr(mw,m,i+m1). *)
Definition strength (evl : Z -> Z -> Z -> Q) (q : Z -> Z -> Q) (p i : Z) : Q :=
  zsum 0 neq (fun m => evl p m i * (q m i - q m (i - 1)%Z)).
Definition trans_h (evl evr hh0 : Z -> Z -> Z -> Q) (q : Z -> Z -> Q) (p i d : Z) : Q :=
  if in_slice (ng + 1) (mx2 - 1) i
  then zsum 0 neq (fun m => evl p m i * strength evl q p (i + d)%Z * evr p m (i + d)%Z) else hh0 p i d.
Definition weno5_trans (evl evr hh0 : Z -> Z -> Z -> Q) (q : Z -> Z -> Q) : edges :=
  let side k m i := centre (q m) i + zsum 0 neq (fun p => evr m p i * correction k (trans_h evl evr hh0 q p i)) in
  (fun m i => if in_slice ng (mx2 - ng + 2) i then side (-1)%Z m i else ql0 m i,
   fun m i => if in_slice ng (mx2 - ng + 2) (i + 1) then side 1%Z m (i + 1)%Z else qr0 m i).

(** ** weno5_wave, reconstruct.f90:409-488; [w] m p i *)
Definition wave_dot (w : Z -> Z -> Z -> Q) (p i d : Z) : Q := zsum 0 neq (fun m => w m p (i + d)%Z * w m p i).
Definition f_weno5_wave (w : Z -> Z -> Z -> Q) (q : Z -> Z -> Q) : edges :=
  let u k p i := if qltb (1 # 100000000000000) (wave_dot w p i 0) then correction k (wave_dot w p i) else 0 in
  let inv p i := if qltb (1 # 100000000000000) (wave_dot w p i 0) then 1 / wave_dot w p i 0 else 0 in
  let side k m i := centre (q m) i + zsum 0 nw (fun p => u k p i * w m p i * inv p i) in
  (fun m i => if in_slice 2 (mx2 + 1) i then side (-1)%Z m i else ql0 m i,
   fun m i => if in_slice 2 (mx2 + 1) (i + 1) then side 1%Z m (i + 1)%Z else qr0 m i).

(** ** weno5_fwave, reconstruct.f90:491-582: waves are f-waves divided by their speeds (513-515); the result is not
    a number when a speed in the stencil is zero ([None]). *)
Definition f_weno5_fwave (fw : Z -> Z -> Z -> Q) (s : Z -> Z -> Q) (q : Z -> Z -> Q)
    : (Z -> Z -> option Q) * (Z -> Z -> option Q) :=
  let w m p i := if in_slice 1 (mx2 + 1) i then fw m p i / s p i else fw m p i in
  let u k p i := if qltb (1 # 100000000000000) (wave_dot w p i 0)
                 then correction k (wave_dot w p i)
                      + inject_Z k * (wave_dot w p i (- k)%Z + 6 * wave_dot w p i 0 - wave_dot w p i k) / 12 else 0 in
  let inv p i := if qltb (1 # 100000000000000) (wave_dot w p i 0) then 1 / wave_dot w p i 0 else 0 in
  let finite i := forallb (fun p => forallb (fun d => (negb (in_slice 1 (mx2 + 1) (i + d)) || negb (qeqb (s (Z.of_nat p) (i + d)%Z) 0))%bool)
                                            [-2; -1; 0; 1; 2]%Z) (seq 0 nw) in
  (fun m i => if in_slice 2 (mx2 + 3) i
              then if finite i then Some (q m i + zsum 0 nw (fun p => u (-1)%Z p i * w m p i * inv p i)) else None
              else Some (ql0 m i),
   fun m i => if in_slice 2 (mx2 + 3) (i + 1)
              then if finite (i + 1)%Z then Some (q m i + zsum 0 nw (fun p => u 1%Z p (i + 1)%Z * w m p (i + 1)%Z * inv p (i + 1)%Z)) else None
              else Some (qr0 m i)).

(** ** Second-order routines *)
Definition dmax (a b : Q) : Q := if Qle_bool a b then b else a.
Definition dmin (a b : Q) : Q := if Qle_bool a b then a else b.
(** reconstruct.f90:611-633, 701-723, 787-809: the limiters; any other number leaves the variable as it was *)
Definition recon_limiter (lim : Z) (r : Q) : option Q :=
  if Z.eqb lim 1 then Some (dmax 0 (dmin 1 r))
  else if Z.eqb lim 2 then Some (dmax (dmax 0 (dmin 1 (2 * r))) (dmin 2 r))
  else if Z.eqb lim 3 then Some ((r + Qabs r) / (1 + Qabs r))
  else if Z.eqb lim 4 then let c := (1 + r) / 2 in Some (dmax 0 (dmin (dmin c 2) (2 * r)))
  else if Z.eqb lim 5 then
    let pp := (2 + r) / 3 in
    let amax := dmax (dmax (- (1 # 3) * r) 0) (dmin (dmin (2 * r) pp) 2) in
    Some (dmax 0 (dmin pp amax))
  else None.

(** tvd2, reconstruct.f90:585-642, for one component and cell i (2 <= i < mx2; for i = 1 the variable dqm has no
    value).  [None]: the result is not a number, or not determined by the language: 0/0, inf/inf in van Leer's
    limiter, an unknown limiter. With dqm = 0 and dqp <> 0 the other limiters are finite at infinity and are
    multiplied by zero. *)
Definition tvd2 (lim : Z) (q : Z -> Q) (i : Z) : option (Q * Q) :=
  let dqm := q i - q (i - 1)%Z in
  let dqp := q (i + 1)%Z - q i in
  if qeqb dqm 0 then
    if (qeqb dqp 0 || Z.eqb lim 3 || negb (in_slice 1 6 lim))%bool then None else Some (q i, q i)
  else match recon_limiter lim (dqp / dqm) with
       | None => None
       | Some phi => Some (q i - (1 # 2) * phi * dqm, q i + (1 # 2) * phi * dqm)
       end.

(** tvd2_char, reconstruct.f90:645-742, at interface i, num_ghost+1 <= i <= mx2-1.  [undef]: the value of slimitr
    after an unknown limiter. *)
Section Second.
Variable mthlim : Z -> Z.
Variable undef : Q.
Definition limited (lim : Z) (r : Q) : Q := match recon_limiter lim r with Some x => x | None => undef end.
Definition tvd_h (evl : Z -> Z -> Z -> Q) (q : Z -> Z -> Q) (p i d : Z) : Q :=
  zsum 0 neq (fun m => evl p m i * (q m (i + d)%Z - q m (i + d - 1)%Z)).
Definition tvd_r (a b : Q) : Q := if qltb (1 # 100000000000000) (Qabs b) then a / b else 0.
Definition tvd2_char (evl evr : Z -> Z -> Z -> Q) (q : Z -> Z -> Q) : edges :=
  let h := tvd_h evl q in
  let u1 p i := (1 # 2) * limited (mthlim p) (tvd_r (h p i 0%Z) (h p i (-1)%Z)) * h p i (-1)%Z in
  let u2 p i := - ((1 # 2) * limited (mthlim p) (tvd_r (h p i 1%Z) (h p i 0%Z)) * h p i 0%Z) in
  (fun m i => if in_slice (ng + 1) mx2 i then q m i + zsum 0 neq (fun p => evr m p i * u2 p i) else ql0 m i,
   fun m i => if in_slice (ng + 1) mx2 (i + 1) then q m i + zsum 0 neq (fun p => evr m p (i + 1)%Z * u1 p (i + 1)%Z) else qr0 m i).

(** tvd2_wave, reconstruct.f90:745-822: dotl starts from 0 at interface num_ghost; the loop ends at mx2-num_ghost *)
Definition wave_slope (w : Z -> Z -> Z -> Q) (s : Z -> Z -> Q) (m p i : Z) : Q :=
  let wnorm2 := wave_dot w p i 0 in
  if (in_slice ng (mx2 - ng + 1) i && negb (qeqb wnorm2 0))%bool then
    let dotr := zsum 0 neq (fun m => w m p i * w m p (i + 1)%Z) in
    let dotl := if Z.eqb i ng then 0 else zsum 0 neq (fun m => w m p (i - 1)%Z * w m p i) in
    let r := if qltb 0 (s p i) then dotl / wnorm2 else dotr / wnorm2 in
    w m p i * ((1 # 2) * limited (mthlim p) r)
  else 0.
Definition tvd2_wave (w : Z -> Z -> Z -> Q) (s : Z -> Z -> Q) (q : Z -> Z -> Q) : edges :=
  (fun m i => if in_slice 2 (mx2 + 1) i then q m i - zsum 0 nw (fun p => wave_slope w s m p i) else ql0 m i,
   fun m i => if in_slice 2 (mx2 + 1) (i + 1) then q m i + zsum 0 nw (fun p => wave_slope w s m p (i + 1)%Z) else qr0 m i).
End Second.
End Routines.

(** flux1.f90:65-122 as methods for [dq_hyperbolic]: arrays of flux1 start at 1-num_ghost, those of the routines at
    1.  [evec]: the user's eigenvectors (left p m, right m p) between two neighbouring cells. *)
Definition eigen := list Q -> list Q -> list Q -> list Q -> (Z -> Z -> Q) * (Z -> Z -> Q).
Definition dummy (ng : Z) (a : Z -> Z -> Q) : Z -> Z -> Q := fun m i => a m (i - ng)%Z.
Definition undummy (ng : Z) (e : edges) : edges := (fun m i => fst e m (i + ng)%Z, fun m i => snd e m (i + ng)%Z).
Definition ev_left (E : eigen) (neq naux : nat) (ng : Z) (q aux : Z -> Z -> Q) : Z -> Z -> Z -> Q :=
  fun p m i => fst (E (vec neq q (i - 1 - ng)%Z) (vec neq q (i - ng)%Z) (vec naux aux (i - 1 - ng)%Z) (vec naux aux (i - ng)%Z)) p m.
Definition ev_right (E : eigen) (neq naux : nat) (ng : Z) (q aux : Z -> Z -> Q) : Z -> Z -> Z -> Q :=
  fun m p i => snd (E (vec neq q (i - 1 - ng)%Z) (vec neq q (i - ng)%Z) (vec naux aux (i - 1 - ng)%Z) (vec naux aux (i - ng)%Z)) m p.
Definition dummy_wave (rp : rpsolver) (neq naux : nat) (ng : Z) (q aux : Z -> Z -> Q) : rpdata :=
  let R := solve_rps rp neq naux (-1) q aux in
  mkRP (fun m p i => wave R m p (i - ng)%Z) (fun p i => spd R p (i - ng)%Z) (fun m i => amdq R m (i - ng)%Z) (fun m i => apdq R m (i - ng)%Z).

Definition char_recon (eps : Q) (E : eigen) (neq naux : nat) (ng mx : Z) ql0 qr0 hh0 (q aux : Z -> Z -> Q) : edges :=
  undummy ng (weno5_char eps neq ng (mx + 2 * ng) (dummy ng ql0) (dummy ng qr0)
                (ev_left E neq naux ng q aux) (ev_right E neq naux ng q aux) hh0 (dummy ng q)).
Definition trans_recon (eps : Q) (E : eigen) (neq naux : nat) (ng mx : Z) ql0 qr0 hh0 (q aux : Z -> Z -> Q) : edges :=
  undummy ng (weno5_trans eps neq ng (mx + 2 * ng) (dummy ng ql0) (dummy ng qr0)
                (ev_left E neq naux ng q aux) (ev_right E neq naux ng q aux) hh0 (dummy ng q)).
Definition wave_recon (eps : Q) (rp : rpsolver) (neq nw naux : nat) (ng mx : Z) ql0 qr0 (q aux : Z -> Z -> Q) : edges :=
  undummy ng (f_weno5_wave eps neq nw (mx + 2 * ng) (dummy ng ql0) (dummy ng qr0)
                (wave (dummy_wave rp neq naux ng q aux)) (dummy ng q)).
Definition tvd_char_recon (mthlim : Z -> Z) (undef : Q) (E : eigen) (neq naux : nat) (ng mx : Z) ql0 qr0 (q aux : Z -> Z -> Q) : edges :=
  undummy ng (tvd2_char neq ng (mx + 2 * ng) (dummy ng ql0) (dummy ng qr0) mthlim undef
                (ev_left E neq naux ng q aux) (ev_right E neq naux ng q aux) (dummy ng q)).
Definition tvd_wave_recon (mthlim : Z -> Z) (undef : Q) (rp : rpsolver) (neq nw naux : nat) (ng mx : Z) ql0 qr0 (q aux : Z -> Z -> Q) : edges :=
  let R := dummy_wave rp neq naux ng q aux in
  undummy ng (tvd2_wave neq nw ng (mx + 2 * ng) (dummy ng ql0) (dummy ng qr0) mthlim undef (wave R) (spd R) (dummy ng q)).
