(** Model of SharpClaw's fifth-order WENO reconstruction: src/pyclaw/limiters/recon.py weno (Python),
    src/pyclaw/sharpclaw/weno.f90 weno5 (Fortran, lim_type 2) and src/pyclaw/sharpclaw/reconstruct.f90 weno5
    (Fortran, lim_type 3).

    A ghosted array of one component is a function of the index.  [eps] is epweno = 1e-36.  The decimal
    constants of weno.f90 are taken as the fractions they abbreviate. *)
From Verif Require Import Base Classic1DModel.

Section Weno.
Variable eps : Q.

(** recon.py:21-51 and reconstruct.f90:157-187: the reconstruction at one interface from the differences
    [dq]; k = 1 for m1 = 1 and k = -1 for m1 = 2.  [q] and [dq] are indexed as in Python: dq i = q (i+1) - q i. *)
Definition shu (k : Z) (q dq : Z -> Q) (i : Z) : Q :=
  let im := inject_Z k in
  let d_intwo := dq (i - 2 * k)%Z in
  let d_inone := dq (i - k)%Z in
  let d := dq i in
  let d_ione := dq (i + k)%Z in
  let t1 := im * (d_intwo - d_inone) in
  let t2 := im * (d_inone - d) in
  let t3 := im * (d - d_ione) in
  let tt1 := 13 * (t1 * t1) + 3 * ((d_intwo - 3 * d_inone) * (d_intwo - 3 * d_inone)) in
  let tt2 := 13 * (t2 * t2) + 3 * ((d_inone + d) * (d_inone + d)) in
  let tt3 := 13 * (t3 * t3) + 3 * ((3 * d - d_ione) * (3 * d - d_ione)) in
  let tt1 := (eps + tt1) * (eps + tt1) in
  let tt2 := (eps + tt2) * (eps + tt2) in
  let tt3 := (eps + tt3) * (eps + tt3) in
  let s1 := tt2 * tt3 in
  let s2 := 6 * tt1 * tt3 in
  let s3 := 3 * tt1 * tt2 in
  let t0 := 1 / (s1 + s2 + s3) in
  let s1 := s1 * t0 in
  let s3 := s3 * t0 in
  (s1 * (t2 - t1) + ((1 # 2) * s3 - (1 # 4)) * (t3 - t2)) / 3
  + (- q (i - 1)%Z + 7 * (q i + q (i + 1)%Z) - q (i + 2)%Z) / 12.

(** recon.py:3-55 weno for one component of an array of N cells (N >= 5): (ql, qr).  Outside the slices the
    arrays keep the copied cell averages. *)
Definition py_weno (N : Z) (q : Z -> Q) : (Z -> Q) * (Z -> Q) :=
  let dqiph := fun i => q (i + 1)%Z - q i in
  let LL := 3%Z in let UL := (N - 2)%Z in
  (fun i => if in_slice LL UL i then shu (-1) q dqiph (i - 1)%Z else q i,
   fun i => if in_slice (LL - 1) (UL - 1) i then shu 1 q dqiph i else q i).

(** reconstruct.f90:131-197 weno5 for one component.  Fortran's dq1m(i) is q(i)-q(i-1), so its interface i is
    the interface i-1 of [shu].  [ql0], [qr0] are the previous contents of the work arrays and dq1m(1), which
    no statement sets, is [d1]. *)
Definition f_weno_shu (ng mx2 : Z) (d1 : Q) (ql0 qr0 q : Z -> Q) : (Z -> Q) * (Z -> Q) :=
  let dq1m := fun i => if Z.leb 2 i then q i - q (i - 1)%Z else d1 in
  let uu := fun k i => shu k q (fun j => dq1m (j + 1)%Z) (i - 1)%Z in
  (fun i => if in_slice ng (mx2 - ng + 2) i then uu (-1)%Z i else ql0 i,
   fun i => if in_slice (ng - 1) (mx2 - ng + 1) i then uu 1%Z (i + 1)%Z else qr0 i).

(** weno.f90:30-79: smoothness indicators, weights and values for cell i of one component. *)
Definition pyweno (q : Z -> Q) (i : Z) : Q * Q :=
  let q0 := q i in let p1 := q (i + 1)%Z in let p2 := q (i + 2)%Z in
  let m1 := q (i - 1)%Z in let m2 := q (i - 2)%Z in
  let sigma0 := (10 # 3) * (q0 * q0) - (31 # 3) * q0 * p1 + (11 # 3) * q0 * p2
                + (25 # 3) * (p1 * p1) - (19 # 3) * p1 * p2 + (4 # 3) * (p2 * p2) in
  let sigma1 := (13 # 3) * (q0 * q0) - (13 # 3) * q0 * p1 - (13 # 3) * q0 * m1
                + (4 # 3) * (p1 * p1) + (5 # 3) * p1 * m1 + (4 # 3) * (m1 * m1) in
  let sigma2 := (10 # 3) * (q0 * q0) - (31 # 3) * q0 * m1 + (11 # 3) * q0 * m2
                + (25 # 3) * (m1 * m1) - (19 # 3) * m1 * m2 + (4 # 3) * (m2 * m2) in
  let omega0 := (1 # 10) / ((eps + sigma0) * (eps + sigma0)) in
  let omega1 := (6 # 10) / ((eps + sigma1) * (eps + sigma1)) in
  let omega2 := (3 # 10) / ((eps + sigma2) * (eps + sigma2)) in
  let omega3 := (3 # 10) / ((eps + sigma0) * (eps + sigma0)) in
  let omega4 := (6 # 10) / ((eps + sigma1) * (eps + sigma1)) in
  let omega5 := (1 # 10) / ((eps + sigma2) * (eps + sigma2)) in
  let fr0 := (11 # 6) * q0 - (7 # 6) * p1 + (1 # 3) * p2 in
  let fr1 := (5 # 6) * q0 - (1 # 6) * p1 + (1 # 3) * m1 in
  let fr2 := (1 # 3) * q0 + (5 # 6) * m1 - (1 # 6) * m2 in
  let fr3 := (1 # 3) * q0 + (5 # 6) * p1 - (1 # 6) * p2 in
  let fr4 := (5 # 6) * q0 + (1 # 3) * p1 - (1 # 6) * m1 in
  let fr5 := (11 # 6) * q0 - (7 # 6) * m1 + (1 # 3) * m2 in
  ((fr0 * omega0 + fr1 * omega1 + fr2 * omega2) / (omega0 + omega1 + omega2),
   (fr3 * omega3 + fr4 * omega4 + fr5 * omega5) / (omega3 + omega4 + omega5)).

(** weno.f90:5-82 weno5 for one component; Fortran indices of q start at 1 here (the dummy argument). *)
Definition f_weno5 (ng maxnx : Z) (ql0 qr0 q : Z -> Q) : (Z -> Q) * (Z -> Q) :=
  (fun i => if in_slice ng (maxnx + ng + 2) i then fst (pyweno q i) else ql0 i,
   fun i => if in_slice ng (maxnx + ng + 2) i then snd (pyweno q i) else qr0 i).
End Weno.
