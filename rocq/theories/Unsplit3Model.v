(** Model of the unsplit three-dimensional classic solver: src/pyclaw/classic/flux3.f90, step3.f90 and the branch of
    src/pyclaw/classic/solver.py ClawSolver3D.step_hyperbolic with dimensional_split = False.

    The conventions are those of SweepModel.v.  The Riemann solvers rpt3 and rptt3 work interface by interface.
    Work arrays that a call of flux3 reads without having written them in this step hold what was left in
    solver.work; they are the argument [stale]. *)
From Verif Require Import Base BCModel LimiterModel Classic1DModel SweepModel.

(** rpt3 at one interface: icoor (2: first, 3: second direction across), imp, the states on the two sides, the aux
    values left and right of the interface in the nine slices aux1(:,:,1:3), aux2(:,:,1:3), aux3(:,:,1:3), and the
    fluctuation to be split; the result is (bmasdq, bpasdq). *)
Definition rpt3solver := Z -> Z -> list Q -> list Q -> list (list Q) -> list (list Q) -> list Q -> (Z -> Q) * (Z -> Q).
(** rptt3 at one interface: icoor, imp, impt, then as above. *)
Definition rptt3solver := Z -> Z -> Z -> list Q -> list Q -> list (list Q) -> list (list Q) -> list Q -> (Z -> Q) * (Z -> Q).

(** Work arrays that may be read before they are written: cqxx, the parts bmcqxxm ... cpcqxxp (icoor, imp, upper)
    and cmamdq2 ... cpapdq2 (imp, upper). *)
Record leftovers := mkLeft {
  l_cqxx : Z -> Z -> Q;
  l_parts : Z -> Z -> bool -> Z -> Z -> Q;
  l_twice : Z -> bool -> Z -> Z -> Q }.

(** What flux3 returns for one slice: qadd, fadd and cfl1d (as flux2 does) and the arrays gadd(:,k,slice,:),
    hadd(:,k,slice,:) with k = 1 (false) or 2 (true). *)
Record slice3_out := mkSlice3 {
  normal : slice_out;
  g3add : bool -> Z -> Z -> Z -> Q;
  h3add : bool -> Z -> Z -> Z -> Q }.

Definition side (upper : bool) (r : (Z -> Q) * (Z -> Q)) : Z -> Q := if upper then snd r else fst r.

(** flux3.f90:186-195: the two digits of method(3) *)
Definition digit3 (trans : Z) : Z := if Z.ltb trans 0 then -1 else Z.div trans 10.
Definition digit4 (trans : Z) : Z := if Z.ltb trans 0 then 0 else (trans - 10 * Z.div trans 10)%Z.

Section Flux3.
Variables (neq nw naux : nat) (ng mx : Z).
Variable fwave : bool.
Variable order : Z.                  (* method(2) *)
Variable trans : Z.                  (* method(3) *)
Variable mthlim : Z -> Z.
Variable undef : Q -> Q -> Z -> Q.
Variable rpn : rpsolver.
Variable rpt : rpt3solver.
Variable rptt : rptt3solver.
Variable stale : leftovers.
Variable q1d : Z -> Z -> Q.
Variable dtdx : Z -> Q.              (* dtdx1d *)
Variables (dtdy dtdz : Q).
Variable auxs : list (Z -> Z -> Q).  (* the nine slices; the fifth is aux2(:,:,2) *)

Definition aux22 : Z -> Z -> Q := nth 4 auxs (fun _ _ => 0).
Definition rp_sol : rpdata := solve_rps rpn neq naux (-1) q1d aux22.
(** flux3.f90:228-259; with method(2) = 1 the statements are skipped (220) *)
Definition cqxx3 (m i : Z) : Q :=
  if Z.eqb order 1 then l_cqxx stale m i
  else (1 # 2) * f_cqxx nw fwave dtdx (spd rp_sol)
    (if any_limiter nw mthlim then f_limiter neq mx mthlim undef (wave rp_sol) (spd rp_sol) else wave rp_sol) m i.

(** A call of rpt3 at interface i *)
Definition split3 (icoor imp : Z) (dq : Z -> Z -> Q) (i : Z) : (Z -> Q) * (Z -> Q) :=
  rpt icoor imp (vec neq q1d (i - 1)) (vec neq q1d i) (map (fun a => vec naux a (i - 1)) auxs) (map (fun a => vec naux a i) auxs) (vec neq dq i).
(** flux3.f90:272-291: bmamdq, bpamdq (icoor 2, imp 1), bmapdq, bpapdq (2, 2), cmamdq, cpamdq (3, 1), cmapdq, cpapdq (3, 2) *)
Definition incr (icoor imp : Z) (up : bool) (m i : Z) : Q :=
  side up (split3 icoor imp (if Z.eqb imp 1 then amdq rp_sol else apdq rp_sol) i) m.
(** flux3.f90:296-344: bmcqxxm (icoor 2, imp 1), bmcqxxp (2, 2), cmcqxxm (3, 1), cmcqxxp (3, 2) and those with p for m.
    Without aux arrays cqxx is split once with imp = 0. *)
Definition corr (icoor imp : Z) (up : bool) (m i : Z) : Q :=
  if Z.eqb (digit3 trans) 2 then side up (split3 icoor (if Nat.ltb 0 naux then imp else 0%Z) cqxx3 i) m
  else l_parts stale icoor imp up m i.
(** flux3.f90:353-367: cmamdq2 ... cpapdq2, which rptt3 splits with icoor = 2; 479-486: bmamdq ... bpapdq, which it
    splits with icoor = 3. *)
Definition both (icoor imp : Z) (top : bool) (m i : Z) : Q :=
  let oth := (5 - icoor)%Z in
  if Z.eqb (digit4 trans) 2 then
    (if Z.eqb imp 1 then incr oth imp top m i + 3 * corr oth imp top m i else incr oth imp top m i - 3 * corr oth imp top m i)
  else if (Z.eqb (digit4 trans) 1 || Z.eqb icoor 3)%bool then incr oth imp top m i
  else l_twice stale imp top m i.
(** flux3.f90:375-384 and 498-507: bmcpapdq, bpcpapdq, ... *)
Definition double (icoor imp : Z) (top up : bool) (m i : Z) : Q :=
  side up (rptt icoor imp (if top then 2 else 1)%Z (vec neq q1d (i - 1)) (vec neq q1d i)
    (map (fun a => vec naux a (i - 1)) auxs) (map (fun a => vec naux a i) auxs) (vec neq (both icoor imp top) i)) m.

(** flux3.f90:390-469 and 513-594: what interface i adds to slice [sl] of gadd (icoor 2, [dtc] = dtdz) or hadd
    (icoor 3, [dtc] = dtdy), divided by dtdx1d: in cell i-1 for imp = 1, in cell i for imp = 2. *)
Definition part3 (icoor imp : Z) (dtc : Q) (up : bool) (sl m i : Z) : Q :=
  let d4 := Z.ltb 0 (digit4 trans) in
  match sl with
  | 0%Z =>
      - ((1 # 2) * incr icoor imp up m i)
      + (if d4 then (1 # 6) * dtc * (double icoor imp true up m i - double icoor imp false up m i) else 0)
      + (if Z.leb 2 (digit3 trans) then (if Z.eqb imp 1 then - corr icoor imp up m i else corr icoor imp up m i) else 0)
  | 1%Z => if d4 then - ((1 # 6) * dtc * double icoor imp true up m i) else 0
  | (-1)%Z => if d4 then (1 # 6) * dtc * double icoor imp false up m i else 0
  | _ => 0
  end.
(** The loops over i = 1 .. mx+1 *)
Definition add3 (icoor : Z) (dtc : Q) (up : bool) (sl m i : Z) : Q :=
  (if in_slice 0 (mx + 1) i then dtdx i * part3 icoor 1 dtc up sl m (i + 1) else 0)
  + (if in_slice 1 (mx + 2) i then dtdx i * part3 icoor 2 dtc up sl m i else 0).

(** flux3.f90:168-597.  The statements up to 261 are those of flux2.f90 with method(3) = -1 (the factor 1/2 is in
    cqxx here and in fadd there). *)
Definition flux3 : slice3_out :=
  let F := flux2 neq nw naux ng mx fwave order (-1) mthlim undef rpn no_rpt q1d dtdx aux22 aux22 aux22 in
  if Z.leb (digit3 trans) 0 then mkSlice3 F (fun _ _ _ _ => 0) (fun _ _ _ _ => 0)
  else mkSlice3 F (add3 2 dtdz) (add3 3 dtdy).
End Flux3.

(** The directions across: flux3 is called with (dtdy, dtdz) in x-sweeps, (dtdz, dtdx) in y-sweeps and (dtdx, dtdy)
    in z-sweeps (step3.f90:163, 317, 477). *)
Definition across1 (d : nat) : nat := match d with 0%nat => 1%nat | 1%nat => 2%nat | _ => 0%nat end.
Definition across2 (d : nat) : nat := match d with 0%nat => 2%nat | 1%nat => 0%nat | _ => 1%nat end.

(** The slice a steps away in the first and b steps away in the second direction across *)
Definition move3 (d : nat) (a b : Z) (ix : list Z) : list Z :=
  put (across2 d) (get (across2 d) ix + b)%Z (put (across1 d) (get (across1 d) ix + a)%Z ix).
Definition nine : list (Z * Z) :=
  [(-1, -1); (-1, 0); (-1, 1); (0, -1); (0, 0); (0, 1); (1, -1); (1, 0); (1, 1)]%Z.

(** step3.f90:127-181, 286-335, 442-495: the call of flux3 for one slice; q1d always comes from qold.
    What the work arrays hold before the call may differ from slice to slice. *)
Definition u3_flux (undef : Q -> Q -> Z -> Q) (S : msettings) (rpt : nat -> rpt3solver) (rptt : nat -> rptt3solver) (stale : nat -> list Z -> leftovers)
    (trans : Z) (d : nat) (auxbc qold : arr Q) (base : list Z) : slice3_out :=
  flux3 (n_neq S) (n_nw S) (n_naux S) (Z.of_nat (n_ng S)) (nth d (map ncells (n_bcs S)) 0%Z) (n_fwave S) (n_order S)
    trans (n_mthlim S) undef (n_rpn S d) (rpt d) (rptt d) (stale d base) (slice (n_ng S) d base qold)
    (line_dtdx S d (slice (n_ng S) d base auxbc)) (n_dt S / n_delta S (across1 d)) (n_dt S / n_delta S (across2 d))
    (map (fun o => slice (n_ng S) d (move3 d (fst o) (snd o) base) auxbc) nine).

(** step3.f90:191-274, 346-429, 506-591: qnew in the slice and in the eight slices around it is updated for
    i = 1..mx.  With a capacity function each update is divided by the capacity of the cell it goes to. *)
Definition u3_change (S : msettings) (d : nat) (F : slice3_out) (auxbc : arr Q) (base : list Z) (v : Q) (m : Z) (ix : list Z) : Q :=
  let i := (get d ix - Z.of_nat (n_ng S) + 1)%Z in
  let a := (get (across1 d) ix - get (across1 d) base)%Z in
  let b := (get (across2 d) ix - get (across2 d) base)%Z in
  let dtx := n_dt S / n_delta S d in
  let dty := n_dt S / n_delta S (across1 d) in
  let dtz := n_dt S / n_delta S (across2 d) in
  let cap x := match n_capa S with None => x | Some k => x / auxbc k ix end in
  let g := fun k sl => g3add F k sl m i in
  let h := fun k sl => h3add F k sl m i in
  let f := fadd (normal F) m in
  if in_slice 1 (nth d (map ncells (n_bcs S)) 0%Z + 1) i then
    match a, b with
    | 0%Z, 0%Z => v + qadd (normal F) m i - cap (dtx * (f (i + 1)%Z - f i) + dty * (g true 0%Z - g false 0%Z) + dtz * (h true 0%Z - h false 0%Z))
    | (-1)%Z, 0%Z => v - cap (dty * g false 0%Z + dtz * (h true (-1)%Z - h false (-1)%Z))
    | (-1)%Z, (-1)%Z => v - cap (dty * g false (-1)%Z + dtz * h false (-1)%Z)
    | 0%Z, (-1)%Z => v - cap (dty * (g true (-1)%Z - g false (-1)%Z) + dtz * h false 0%Z)
    | 1%Z, (-1)%Z => v + cap (dty * g true (-1)%Z - dtz * h false 1%Z)
    | 1%Z, 0%Z => v + cap (dty * g true 0%Z - dtz * (h true 1%Z - h false 1%Z))
    | 1%Z, 1%Z => v + cap (dty * g true 1%Z + dtz * h true 1%Z)
    | 0%Z, 1%Z => v - cap (dty * (g true 1%Z - g false 1%Z) - dtz * h true 0%Z)
    | (-1)%Z, 1%Z => v - cap (dty * g false 1%Z - dtz * h true (-1)%Z)
    | _, _ => v
    end
  else v.

Definition u3_body (undef : Q -> Q -> Z -> Q) (S : msettings) (rpt : nat -> rpt3solver) (rptt : nat -> rptt3solver) (stale : nat -> list Z -> leftovers)
    (trans : Z) (d : nat) (auxbc qold : arr Q) (st : arr Q * Q) (base : list Z) : arr Q * Q :=
  let F := u3_flux undef S rpt rptt stale trans d auxbc qold base in
  (fun m ix => u3_change S d F auxbc base (fst st m ix) m ix, pymax (snd st) (cfl1d (normal F))).

(** The slices 0 .. m+1 in both directions across (step3.f90:124-125, 283-284, 439-440) *)
Definition u3_sweep (undef : Q -> Q -> Z -> Q) (S : msettings) (rpt : nat -> rpt3solver) (rptt : nat -> rptt3solver) (stale : nat -> list Z -> leftovers)
    (trans : Z) (d : nat) (auxbc qold : arr Q) (st : arr Q * Q) : arr Q * Q :=
  fold_left (u3_body undef S rpt rptt stale trans d auxbc qold) (lines d (n_ng S) 1 (map ncells (n_bcs S))) st.

(** step3.f90: x-sweeps, y-sweeps and z-sweeps, all from qold *)
Definition step3 (undef : Q -> Q -> Z -> Q) (S : msettings) (rpt : nat -> rpt3solver) (rptt : nat -> rptt3solver) (stale : nat -> list Z -> leftovers)
    (trans : Z) (auxbc qold qnew : arr Q) : arr Q * Q :=
  let sw d := u3_sweep undef S rpt rptt stale trans d auxbc qold in
  sw 2%nat (sw 1%nat (sw 0%nat (qnew, 0))).

(** classic/solver.py:648-706 step_hyperbolic with dimensional_split = False; method(3) = transverse_waves. *)
Definition unsplit3_step (undef : Q -> Q -> Z -> Q) (S : msettings) (rpt : nat -> rpt3solver) (rptt : nat -> rptt3solver) (stale : nat -> list Z -> leftovers)
    (trans : Z) (q aux qbc0 auxbc0 : arr Q) : mresult :=
  match apply_bcs Q Qopp (n_ng S) (Nat.ltb 0 (n_naux S)) (n_funs S) (Z.of_nat (n_neq S)) (n_bcs S) q aux qbc0 auxbc0 with
  | Raised e => MBCError e
  | Ok (qbc, auxbc) =>
      let r := step3 undef S rpt rptt stale trans auxbc qbc qbc in
      MStepped (set_q_from_qbc Q (n_ng S) (fst r)) (snd r)
  end.
