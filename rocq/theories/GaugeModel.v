(** Gauges: recording values in cells after every accepted step.
    src/pyclaw/solver.py (write_gauge_values, its call in evolve_to_time), src/pyclaw/geometry.py
    (setup_gauge_files) and the parts of src/pyclaw/controller.py (run) that concern gauges.

    Simplifications: a line of a gauge file is the pair of the time and the values written on it; file names
    are integers; the frames written by run are left out (ControllerModel), and run's calls of evolve_to_time
    are given as a list.  Creating and writing files succeeds. *)
From Verif Require Import Base TimeModel.

(** one row of gauge data: the time and the values *)
Definition row := (Q * list Q)%type.

(** an element of grid.gauge_files *)
Record handle := mkHandle { h_name : Z; h_open : bool; h_lines : list row }.

Inductive gauge_error :=
| NoValue          (* UnboundLocalError: q is only assigned in one and two dimensions (solver.py:688-697) *)
| BadIndex         (* the gauge has not as many indices as the solver has dimensions (solver.py:689, 694) *)
| BadShape         (* ValueError of numpy.vstack: rows of different lengths *)
| NoFile           (* IndexError: gauge_files[i] does not exist *)
| ClosedFile.      (* ValueError: I/O operation on closed file (not an IOError) *)

(** grid.gauges, grid.gauge_file_names, grid.gauge_files (geometry.py:197-204), state.keep_gauges,
    state.gauge_data (state.py:142-147), the gauge files left on the disk by earlier programs, and whether the
    output directory exists *)
Record gauges := mkGauges {
  g_cells : list (list Z);
  g_names : list Z;
  g_files : list handle;
  g_keep : bool;
  g_data : list (list row);
  g_old : Z -> option (list row);
  g_dir : bool }.

Definition set_files (fs : list handle) (g : gauges) : gauges :=
  mkGauges (g_cells g) (g_names g) fs (g_keep g) (g_data g) (g_old g) (g_dir g).
Definition set_data (d : list (list row)) (g : gauges) : gauges :=
  mkGauges (g_cells g) (g_names g) (g_files g) (g_keep g) d (g_old g) (g_dir g).

(** What the file of this name holds: opening removes the old file, so only the last one opened counts. *)
Fixpoint last_file (name : Z) (fs : list handle) : option handle :=
  match fs with
  | [] => None
  | h :: r => match last_file name r with
              | Some x => Some x
              | None => if (h_name h =? name)%Z then Some h else None
              end
  end.
Definition on_disk (g : gauges) (name : Z) : option (list row) :=
  match last_file name (g_files g) with Some h => Some (h_lines h) | None => g_old g name end.

(** geometry.py:407-423 setup_gauge_files: makedirs creates the output directory as well *)
Definition setup_gauge_files (g : gauges) : gauges :=
  mkGauges (g_cells g) (g_names g) (g_files g ++ map (fun n => mkHandle n true []) (g_names g))
    (g_keep g) (g_data g) (g_old g) true.

(** list[i] = v *)
Definition set_nth {A} (i : nat) (v : A) (l : list A) : list A := firstn i l ++ v :: skipn (S i) l.

Section Write.
Variables DQ DX : Type.
Variable num_dim : Z.                          (* solver.num_dim *)
Variable qat : DQ -> list Z -> list Q.         (* state.q[:,ix,...] *)
Variable auxat : DX -> option (list Z -> list Q).   (* state.aux[:,ix,...]; None when num_aux is 0 *)
Variable compute : list Q -> option (list Q) -> list Q.   (* compute_gauge_values, a scalar made a list *)

(** solver.py:688-700: the values recorded at one gauge *)
Definition gauge_value (u : sol DQ DX) (cell : list Z) : list Q + gauge_error :=
  let value := inl (compute (qat (sq u) cell) (match auxat (sx u) with Some f => Some (f cell) | None => None end)) in
  if (num_dim =? 1)%Z then match cell with [_] => value | _ => inr BadIndex end
  else if (num_dim =? 2)%Z then match cell with [_; _] => value | _ => inr BadIndex end
  else inr NoValue.

(** solver.py:702-707: gauge_data *)
Definition record (i : nat) (r : row) (g : gauges) : gauges * option gauge_error :=
  if g_keep g then
    if Nat.eqb (length (g_data g)) (length (g_cells g)) then
      let rows := nth i (g_data g) [] in
      if forallb (fun x => Nat.eqb (length (snd x)) (length (snd r))) rows
      then (set_data (set_nth i (rows ++ [r]) (g_data g)) g, None)
      else (g, Some BadShape)
    else (set_data (g_data g ++ [[r]]) g, None)
  else (g, None).

(** solver.py:709-711: gauge_files[i].write *)
Definition write_line (i : nat) (r : row) (g : gauges) : gauges * option gauge_error :=
  match nth_error (g_files g) i with
  | None => (g, Some NoFile)
  | Some h => if h_open h
              then (set_files (set_nth i (mkHandle (h_name h) true (h_lines h ++ [r])) (g_files g)) g, None)
              else (g, Some ClosedFile)
  end.

(** solver.py:687-715, one pass *)
Definition write_gauge (u : sol DQ DX) (i : nat) (cell : list Z) (g : gauges) : gauges * option gauge_error :=
  match gauge_value u cell with
  | inr e => (g, Some e)
  | inl p =>
      let '(g1, e) := record i (st u, p) g in
      match e with
      | Some x => (g1, Some x)
      | None => write_line i (st u, p) g1
      end
  end.
Fixpoint write_gauges (u : sol DQ DX) (i : nat) (cells : list (list Z)) (g : gauges) : gauges * option gauge_error :=
  match cells with
  | [] => (g, None)
  | cell :: cells' =>
      let '(g1, e) := write_gauge u i cell g in
      match e with
      | Some x => (g1, Some x)
      | None => write_gauges u (S i) cells' g1
      end
  end.
(** solver.py:680-715 write_gauge_values *)
Definition write_gauge_values (u : sol DQ DX) (g : gauges) : gauges * option gauge_error :=
  write_gauges u 0 (g_cells g) g.

(** ** evolve_to_time with the call of write_gauge_values (solver.py:636), otherwise as in TimeModel *)
Variable E : Type.
Variable stepf : Q -> option Q -> solver E -> sol DQ DX -> solver E * sol DQ DX.
Variable acceptf : solver E -> bool.
Variable before : sol DQ DX -> DQ * DX.

Inductive gerr := SolverError (e : err) | GaugeError (e : gauge_error) | Refuse.

Record gresult := mkGResult {
  gr_solver : solver E; gr_sol : sol DQ DX; gr_gauges : gauges; gr_err : option gerr }.

(** The pass of the loop with the gauges: when writing the gauges raises, the numbers of steps are not yet
    incremented (solver.py:636-639). *)
Fixpoint gevolve_loop (k : nat) (n : Z) (tstart : Q) (tend : option Q) (s : solver E) (so : sol DQ DX) (num : Z) (g : gauges)
  : solver E * sol DQ DX * Z * gauges * option gerr :=
  match k with
  | O => (s, so, num, g, None)
  | S k' =>
      let '(s', so', ev, e) := attempt stepf acceptf before tstart tend n s so in
      let '(g', ge) := if ev_accepted ev then write_gauge_values so' g else (g, None) in
      match ge with
      | Some x => (set_numsteps (st_numsteps s' - 1) s', so', num, g', Some (GaugeError x))
      | None =>
          let num' := if ev_accepted ev then (num + 1)%Z else num in
          match e with
          | Some e => (s', so', num', g', Some (SolverError e))
          | None =>
              if finished tend so' then (s', so', num', g', None)
              else gevolve_loop k' (n + 1) tstart tend s' so' num' g'
          end
      end
  end.
Definition gevolve_to_time (s : solver E) (so : sol DQ DX) (tend : option Q) (g : gauges) : gresult :=
  let tstart := st so in
  let '(s1, e1) := evolve_setup tstart tend s in
  match e1 with
  | Some e => mkGResult s1 so g (Some (SolverError e))
  | None =>
      let '(s2, so2, num, g2, e2) := gevolve_loop (Z.to_nat (max_steps s1)) 0 tstart tend s1 so 0 g in
      match e2 with
      | Some e => mkGResult s2 so2 g2 (Some e)
      | None =>
          let too_many :=
            match tend with
            | None => false
            | Some te => (dt_variable s2 && qltb (st so2) te && Z.eqb num (max_steps s2))%bool
            end in
          mkGResult s2 so2 g2 (if too_many then Some (SolverError EMaxSteps) else None)
      end
  end.

(** The calls of evolve_to_time made by run (controller.py:357-388) *)
Fixpoint gcalls (s : solver E) (so : sol DQ DX) (calls : list (option Q)) (g : gauges) : gresult :=
  match calls with
  | [] => mkGResult s so g None
  | c :: calls' =>
      let r := gevolve_to_time s so c g in
      match gr_err r with
      | Some _ => r
      | None => gcalls (gr_solver r) (gr_sol r) calls' (gr_gauges r)
      end
  end.

(** controller.py:390: close all files *)
Definition close_files (g : gauges) : gauges :=
  set_files (map (fun h => mkHandle (h_name h) false (h_lines h)) (g_files g)) g.

(** controller.py:275-395, the parts that concern gauges: set up the files (296-297), write the initial values
    (309), refuse to overwrite (334-337), evolve, close the files (390).  [output]: output_format is not
    None.  When something raises the files stay open. *)
Definition grun (output overwrite : bool) (calls : list (option Q)) (s : solver E) (so : sol DQ DX) (g : gauges) : gresult :=
  let g1 := if (0 <? length (g_cells g))%nat then setup_gauge_files g else g in
  let '(g2, e) := write_gauge_values so g1 in
  match e with
  | Some x => mkGResult s so g2 (Some (GaugeError x))
  | None =>
      if (output && g_dir g2 && negb overwrite)%bool then mkGResult s so g2 (Some Refuse) else
      let r := gcalls s so calls g2 in
      match gr_err r with
      | Some _ => r
      | None => mkGResult (gr_solver r) (gr_sol r) (close_files (gr_gauges r)) None
      end
  end.
End Write.
Arguments gauge_value {DQ DX}. Arguments write_gauge {DQ DX}. Arguments write_gauges {DQ DX}. Arguments write_gauge_values {DQ DX}.
Arguments mkGResult {DQ DX E}. Arguments gr_solver {DQ DX E}. Arguments gr_sol {DQ DX E}. Arguments gr_gauges {DQ DX E}. Arguments gr_err {DQ DX E}.
Arguments gevolve_loop {DQ DX} num_dim qat auxat compute {E}. Arguments gevolve_to_time {DQ DX} num_dim qat auxat compute {E}.
Arguments gcalls {DQ DX} num_dim qat auxat compute {E}. Arguments grun {DQ DX} num_dim qat auxat compute {E}.
