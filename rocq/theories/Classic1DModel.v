(** Model of the 1D classic (wave propagation) solver: src/pyclaw/classic/solver.py
    ClawSolver1D.step_hyperbolic (Python kernel), src/pyclaw/limiters/tvd.py limit,
    src/pyclaw/classic/step1.f90 and limiter.f90 (Fortran kernel).

    Python arrays with ghost cells are functions of the component and of the 0-based ghosted index;
    Fortran arrays use the Fortran index 1-num_ghost .. mx+num_ghost.  Components and waves are
    numbered from 0 in both.  Components m and waves mw are meaningful below [neq] and [nw]. *)
From Verif Require Import Base BCModel LimiterModel.

(** Finite sum of f over lo, lo+1, ..., lo+n-1. *)
Fixpoint zsum (lo : Z) (n : nat) (f : Z -> Q) : Q :=
  match n with
  | O => 0
  | S n => zsum lo n f + f (lo + Z.of_nat n)%Z
  end.
Definition zrange (lo : Z) (n : nat) : list Z := map (fun k => (lo + Z.of_nat k)%Z) (seq 0 n).
(** [lo <= i < hi] as in the slice [lo:hi] *)
Definition in_slice (lo hi i : Z) : bool := (Z.leb lo i && Z.ltb i hi)%bool.
(** What a Riemann solver returns, over all interfaces. *)
Record rpdata := mkRP {
  wave : Z -> Z -> Z -> Q;   (* component, wave, interface *)
  spd : Z -> Z -> Q;         (* wave, interface *)
  amdq : Z -> Z -> Q;        (* component, interface *)
  apdq : Z -> Z -> Q }.

Section Kernel.
Variable pow : Q -> Q -> Q.        (* numpy's real power, used by limiters 19 and 20 *)
Variables (neq nw : nat) (ng mx : Z).
Variable fwave : bool.             (* solver.fwave *)
Variable order : Z.                (* solver.order *)
Variable mthlim : Z -> Z.          (* solver._mthlim: limiter number of each wave *)

Definition any_limiter : bool := existsb (fun k => Z.ltb 0 (mthlim (Z.of_nat k))) (seq 0 nw).

(** ** Python kernel; interface j lies between cells j and j+1. *)
Notation N := (mx + 2 * ng)%Z.     (* cells including ghost cells; N-1 interfaces *)

(** tvd.py:106 *)
Definition norm2 (w : Z -> Z -> Z -> Q) mw j := zsum 0 neq (fun m => w m mw j * w m mw j).
(** tvd.py:111 *)
Definition dotls (w : Z -> Z -> Z -> Q) mw j := zsum 0 neq (fun m => w m mw (j + 1)%Z * w m mw j).
(** tvd.py:114-126, entry for interface j of 1 .. N-3.  Simplification: numpy's masked division also
    masks a divisor below 1e-308 times the dividend. *)
Definition ratio (w : Z -> Z -> Z -> Q) (s : Z -> Z -> Q) mw j : Q :=
  let n2 := norm2 w mw j in
  if qeqb n2 0 then 0
  else (if qltb 0 (s mw j) then dotls w mw (j - 1)%Z else dotls w mw j) / n2.
(** tvd.py:133-134 *)
Definition local_cfl (s : Z -> Z -> Q) (dtdx : Z -> Q) mw j : Q :=
  Qabs (s mw j * (if qltb 0 (s mw j) then dtdx j else dtdx (j + 1)%Z)).

(** tvd.py:81-139 limit *)
Definition py_limit (w : Z -> Z -> Z -> Q) (s : Z -> Z -> Q) (dtdx : Z -> Q) : Z -> Z -> Z -> Q :=
  fun m mw j =>
  match limiter_functions pow (mthlim mw) with
  | None => w m mw j
  | Some f =>
      if in_slice 1 (N - 2) j then
        let js := zrange 1 (Z.to_nat (N - 3)) in
        let wlimitr := f (map (ratio w s mw) js) (map (local_cfl s dtdx mw) js) in
        if qeqb (norm2 w mw j) 0 then w m mw j
        else nth (Z.to_nat (j - 1)) wlimitr 0 * w m mw j
      else w m mw j
  end.

(** classic/solver.py:342-344: the Godunov update, two statements *)
Definition py_godunov (dtdx : Z -> Q) (R : rpdata) (q : Z -> Z -> Q) : Z -> Z -> Q :=
  let LL := (ng - 1)%Z in let UL := (ng + mx + 1)%Z in
  let q1 := fun m i => if in_slice LL UL i then q m i - dtdx i * apdq R m (i - 1)%Z else q m i in
  fun m i => if in_slice (LL - 1) (UL - 1) i then q1 m i - dtdx i * amdq R m i else q1 m i.

(** classic/solver.py:347-351: Courant number *)
Definition py_cfl (dtdx : Z -> Q) (s : Z -> Z -> Q) : Q :=
  let LL := (ng - 1)%Z in
  let js := zrange (LL - 1) (Z.to_nat (mx + 2)) in
  fold_left (fun c k => let mw := Z.of_nat k in
     pymax3 c (amax (map (fun j => dtdx (j + 1)%Z * s mw j) js))
              (amax (map (fun j => - dtdx j * s mw j) js))) (seq 0 nw) 0.

(** np.sign *)
Definition npsign (x : Q) : Q := if qltb x 0 then -(1) else if qltb 0 x then 1 else 0.

(** classic/solver.py:356-376: correction fluxes, f[m,i] is at the left edge of cell i *)
Definition py_flux (dtdx : Z -> Q) (s : Z -> Z -> Q) (w : Z -> Z -> Z -> Q) : Z -> Z -> Q :=
  let LL := (ng - 1)%Z in let UL := (ng + mx + 1)%Z in
  fun m i =>
  if in_slice LL UL i then
    let dtdxave := (1 # 2) * (dtdx (i - 1)%Z + dtdx i) in
    zsum 0 nw (fun mw =>
      let sabs := Qabs (s mw (i - 1)%Z) in
      let om := 1 - sabs * dtdxave in
      if fwave then (1 # 2) * npsign (s mw (i - 1)%Z) * om * w m mw (i - 1)%Z
      else (1 # 2) * sabs * om * w m mw (i - 1)%Z)
  else 0.

(** classic/solver.py:338-380: the Python kernel after the Riemann solve; new ghosted q and the Courant
    number. *)
Definition py_kernel (dtdx : Z -> Q) (R : rpdata) (q : Z -> Z -> Q) : (Z -> Z -> Q) * Q :=
  let LL := (ng - 1)%Z in let UL := (ng + mx + 1)%Z in
  let q2 := py_godunov dtdx R q in
  let cfl := py_cfl dtdx (spd R) in
  if Z.eqb order 2 then
    let w := if any_limiter then py_limit (wave R) (spd R) dtdx else wave R in
    let f := py_flux dtdx (spd R) w in
    (fun m i => if in_slice LL (UL - 1) i then q2 m i - dtdx i * (f m (i + 1)%Z - f m i) else q2 m i, cfl)
  else (q2, cfl).

(** classic/solver.py:311-317: local dt/dx *)
Definition py_dtdx (dt dx : Q) (capa : option (Z -> Q)) : Z -> Q :=
  match capa with Some k => fun i => dt / (dx * k i) | None => fun _ => dt / dx end.

(** ** Fortran kernel; interface i lies between cells i-1 and i. *)
Variable undef : Q -> Q -> Z -> Q. (* value of philim for a method number it does not handle *)

(** limiter.f90:34-52: body of the loop over i for one wave family; the state is the wave of this family
    and dotr. *)
Definition f_limiter_body (lim : Z) (s : Z -> Q) (st : (Z -> Z -> Q) * Q) (i : Z) : (Z -> Z -> Q) * Q :=
  let w := fst st in
  let wnorm2 := zsum 0 neq (fun m => w m i * w m i) in
  let dotl := snd st in
  let dotr := zsum 0 neq (fun m => w m i * w m (i + 1)%Z) in
  if Z.eqb i 0 then (w, dotr)
  else if qeqb wnorm2 0 then (w, dotr)
  else
    let b := if qltb 0 (s i) then dotl else dotr in
    let wlimitr := match philim wnorm2 b lim with Some p => p | None => undef wnorm2 b lim end in
    (fun m k => if Z.eqb k i then wlimitr * w m k else w m k, dotr).
(** limiter.f90:30-54 *)
Definition f_limiter (w : Z -> Z -> Z -> Q) (s : Z -> Z -> Q) : Z -> Z -> Z -> Q :=
  fun m mw =>
  if Z.eqb (mthlim mw) 0 then w m mw
  else fst (fold_left (f_limiter_body (mthlim mw) (s mw)) (zrange 0 (Z.to_nat (mx + 2)))
              (fun m i => w m mw i, 0)) m.

(** step1.f90:85-88: the two statements of the forall *)
Definition f_godunov (dtdx : Z -> Q) (R : rpdata) (q : Z -> Z -> Q) : Z -> Z -> Q :=
  let q1 := fun m i => if in_slice 1 (mx + 2) i then q m i - dtdx i * apdq R m i else q m i in
  fun m i => if in_slice 0 (mx + 1) i then q1 m i - dtdx i * amdq R m (i + 1)%Z else q1 m i.

(** step1.f90:92-99 *)
Definition f_cfl (dtdx : Z -> Q) (s : Z -> Z -> Q) : Q :=
  fold_left (fun c k => let mw := Z.of_nat k in
    fold_left (fun c i => pymax3 c (dtdx i * s mw i) (- dtdx (i - 1)%Z * s mw i)) (zrange 1 (Z.to_nat (mx + 1))) c)
    (seq 0 nw) 0.

(** Fortran dsign(1,x) *)
Definition dsign1 (x : Q) : Q := if qltb x 0 then -(1) else 1.

(** step1.f90:106-134: correction fluxes *)
Definition f_flux (dtdx : Z -> Q) (s : Z -> Z -> Q) (w : Z -> Z -> Z -> Q) : Z -> Z -> Q :=
  fun m i =>
  if in_slice 1 (mx + 2) i then
    zsum 0 nw (fun mw =>
      let dtdxave := (1 # 2) * (dtdx (i - 1)%Z + dtdx i) in
      if fwave then (1 # 2) * dsign1 (s mw i) * (1 - Qabs (s mw i) * dtdxave) * w m mw i
      else (1 # 2) * Qabs (s mw i) * (1 - Qabs (s mw i) * dtdxave) * w m mw i)
  else 0.

(** step1.f90:80-146 after the Riemann solve *)
Definition f_kernel (dtdx : Z -> Q) (R : rpdata) (q : Z -> Z -> Q) : (Z -> Z -> Q) * Q :=
  let q2 := f_godunov dtdx R q in
  let cfl := f_cfl dtdx (spd R) in
  if Z.eqb order 1 then (q2, cfl)
  else
    let w := if any_limiter then f_limiter (wave R) (spd R) else wave R in
    let f := f_flux dtdx (spd R) w in
    (fun m i => if in_slice 1 (mx + 2) i then q2 m i - dtdx i * (f m (i + 1)%Z - f m i) else q2 m i, cfl).

(** step1.f90:59-70; [None]: the program stops because a capacity is not positive *)
Definition f_dtdx (dt dx : Q) (capa : option (Z -> Q)) : option (Z -> Q) :=
  match capa with
  | Some k =>
      if forallb (fun i => qltb 0 (k i)) (zrange (1 - ng) (Z.to_nat N))
      then Some (fun i => dt / (dx * k i)) else None
  | None => Some (fun _ => dt / dx)
  end.
End Kernel.

(** ** A whole hyperbolic step *)
(** A Riemann solver works interface by interface on the states (and aux values) on the two sides.  All
    solvers of the riemann package do; the result is given per component and wave. *)
Record rpout := mkOut { o_wave : Z -> Z -> Q; o_s : Z -> Q; o_am : Z -> Q; o_ap : Z -> Q }.
Definition rpsolver := list Q -> list Q -> list Q -> list Q -> rpout. (* ql qr auxl auxr *)

(** The vector of the first [n] components at index i. *)
Definition vec (n : nat) (a : Z -> Z -> Q) (i : Z) : list Q := map (fun m => a (Z.of_nat m) i) (seq 0 n).

(** classic/solver.py:319-328 (Python: interface j between j and j+1); step1.f90:77-78 (Fortran:
    interface i between i-1 and i).  [left] is the offset of the left cell. *)
Definition solve_rps (rp : rpsolver) (neq naux : nat) (left : Z) (q aux : Z -> Z -> Q) : rpdata :=
  let at_ j := rp (vec neq q (j + left)%Z) (vec neq q (j + left + 1)%Z)
                  (vec naux aux (j + left)%Z) (vec naux aux (j + left + 1)%Z) in
  mkRP (fun m mw j => o_wave (at_ j) m mw) (fun mw j => o_s (at_ j) mw)
       (fun m j => o_am (at_ j) m) (fun m j => o_ap (at_ j) m).

(** Settings of the solver and problem *)
Record settings := mkSet {
  c_neq : nat; c_nw : nat; c_naux : nat; c_ng : nat; c_fwave : bool; c_order : Z;
  c_mthlim : Z -> Z; c_rp : rpsolver; c_dx : Q; c_dt : Q;
  c_capa : option Z;           (* state.index_capa, None for -1 *)
  c_bc : dimbc; c_funs : userfuns Q }.

Inductive lang := Python | Fortran.
Inductive stepresult := Stepped (q : Z -> Z -> Q) (cfl : Q) | BCError (e : bcerr) | Stopped.

(** The kernel on ghosted arrays, by language, in Python's ghosted indices.  f2py passes the array so
    that Python index p is Fortran index p - num_ghost + 1. *)
Definition kernel (pow : Q -> Q -> Q) (undef : Q -> Q -> Z -> Q) (L : lang) (C : settings)
    (qbc auxbc : Z -> Z -> Q) : option ((Z -> Z -> Q) * Q) :=
  let ng := Z.of_nat (c_ng C) in
  let mx := ncells (c_bc C) in
  match L with
  | Python =>
      let R := solve_rps (c_rp C) (c_neq C) (c_naux C) 0 qbc auxbc in
      let dtdx := py_dtdx (c_dt C) (c_dx C) (option_map (fun k => auxbc k) (c_capa C)) in
      Some (py_kernel pow (c_neq C) (c_nw C) ng mx (c_fwave C) (c_order C) (c_mthlim C) dtdx R qbc)
  | Fortran =>
      let fq := fun m i => qbc m (i + ng - 1)%Z in
      let fa := fun m i => auxbc m (i + ng - 1)%Z in
      let R := solve_rps (c_rp C) (c_neq C) (c_naux C) (-1) fq fa in
      match f_dtdx ng mx (c_dt C) (c_dx C) (option_map (fun k => fa k) (c_capa C)) with
      | None => None
      | Some dtdx =>
          let (q', cfl) := f_kernel (c_neq C) (c_nw C) mx (c_fwave C) (c_order C) (c_mthlim C) undef dtdx R fq in
          Some (fun m p => q' m (p - ng + 1)%Z, cfl)
      end
  end.

(** classic/solver.py:279-387 ClawSolver1D.step_hyperbolic: boundary conditions, kernel, interior.
    [q], [aux] are indexed from 0 over the interior; [qbc0], [auxbc0] are the ghosted arrays left by the
    previous step. *)
Definition step_hyperbolic (pow : Q -> Q -> Q) (undef : Q -> Q -> Z -> Q) (L : lang) (C : settings)
    (q aux : arr Q) (qbc0 auxbc0 : arr Q) : stepresult :=
  match apply_bcs Q Qopp (c_ng C) (Nat.ltb 0 (c_naux C)) (c_funs C) (Z.of_nat (c_neq C)) [c_bc C] q aux qbc0 auxbc0 with
  | Raised e => BCError e
  | Ok (qbc, auxbc) =>
      match kernel pow undef L C (fun m i => qbc m [i]) (fun m i => auxbc m [i]) with
      | None => Stopped
      | Some (q', cfl) => Stepped (fun m i => q' m (i + Z.of_nat (c_ng C))%Z) cfl
      end
  end.
