(** What a run that is continued from one of its frames should give (C143). *)
From Verif Require Import Base TimeModel TimeSpec FormatModel HdfModel HdfSpec ControllerModel ControllerSpec RestartModel.

(** Settings that ask for the frames after the first [j] of a run with the settings [c] *)
Record rest_of {DQ DX P F} (j : nat) (c c2 : controller DQ DX P F) : Prop := mkRest {
  ro_style : c_style c2 = c_style c; ro_output : c_output c2 = c_output c;
  ro_aux : c_aux_always c2 = c_aux_always c; ro_p : c_p c2 = c_p c; ro_F : c_F c2 = c_F c;
  ro_times : match c_style c with
             | 1%Z => c_tfinal c2 = c_tfinal c /\ c_num c2 = (c_num c - Z.of_nat j)%Z
             | 2%Z => c_times c2 <> [] /\ tl (c_times c2) = skipn j (tl (c_times c))
             | _ => c_num c2 = c_num c /\ c_nstepout c2 = c_nstepout c
             end }.

(** A list of times, each a whole number of steps after the one before *)
Fixpoint steps_apart (d t : Q) (ts : list Q) : Prop :=
  match ts with
  | [] => True
  | x :: r => (exists N, (1 <= N)%Z /\ x == t + inject_Z N * d) /\ steps_apart d x r
  end.
(** The step divides the intervals between the frames; times are not so large that the step is lost in rounding. *)
Definition fits {DQ DX P F} (c : controller DQ DX P F) (d t0 : Q) : Prop :=
  canonical d /\ tol10 < d /\
  match c_style c with
  | 1%Z => (exists m, (1 <= m)%Z /\ c_tfinal c == t0 + inject_Z (c_num c * m) * d) /\ eps14 * c_tfinal c <= d
  | 2%Z => steps_apart d t0 (tl (c_times c)) /\ Forall (fun x => eps14 * x <= d) (tl (c_times c))
  | _ => True
  end.

(** Fixed steps of the same size and the same limit of the Courant number *)
Definition same_steps {E} (s s2 : solver E) : Prop :=
  dt_variable s = false /\ dt_variable s2 = false /\ dt s2 = dt s /\ cfl_max s2 = cfl_max s.

(** Every frame of the run can be stored, and its auxiliary array is stored with it *)
Definition kept_whole {P F} (pa : patch) (c : controller array (option array) P F) (outs : list (output array (option array) P F)) : Prop :=
  forall n u, In (n, u) (frames_written outs) -> (0 <= n)%Z /\ storable (state_of pa u) /\ (c_aux_always c = true \/ sx u = None).
(** The derived quantities written, with the numbers of their frames *)
Fixpoint derived_written {DQ DX P F} (outs : list (output DQ DX P F)) : list (Z * P) :=
  match outs with
  | [] => []
  | WriteP n _ p :: r => (n, p) :: derived_written r
  | _ :: r => derived_written r
  end.

(** The second program: it reads the frame, keeps its number and asks for the frames that are left. *)
Record resumes {E P F} (path prefix : text) (pa : patch) (j : nat) (fs' : files) (c c2 : controller array (option array) P F)
    (start : Z) (w2 : world array (option array) E P F) : Prop := mkResumes {
  re_read : solution_read fs' path (Prefix prefix) (start + Z.of_nat j) true = Ok [state_of pa (w_sol w2)];
  re_start : w_start w2 = start_frame (Positional (Some false)) (start + Z.of_nat j);
  re_rest : rest_of j c c2;
  re_dir : c_output c2 = true -> w_dir w2 = true -> c_overwrite c2 = true }.

(** What the two programs leave is what the first one would have left: every file of the directory of frames, the derived
    quantities from frame [j] on; the file of functionals holds the lines from frame [j] on. *)
Record completes {P F} (path prefix : text) (pa : patch) (j : nat) (c : controller array (option array) P F)
    (fs fs' : files) (outs outs2 : list (output array (option array) P F)) : Prop := mkCompletes {
  co_files : exists fs1 fs2, save path prefix pa outs fs = Ok fs1 /\ save path prefix pa outs2 fs' = Ok fs2 /\ forall name, fs2 name = fs1 name;
  co_derived : derived_written outs2 = skipn j (derived_written outs);
  co_functionals : c_F c <> None -> forall lines lines2, F_lines lines2 outs2 = skipn j (F_lines lines outs) }.
