(** Stopping a program and going on from a frame on disk: src/pyclaw/solution.py (the constructor) and the frames that
    Controller.run writes as HDF5 files (ControllerModel, HdfModel).

    Solutions have one patch. Files of derived quantities (compute_p) and of functionals (compute_F) have other names and
    are left out of [save]. *)
From Coq Require Import Ascii String.
From Verif Require Import Base TimeModel FormatModel HdfModel ControllerModel.

(** solution.py:136-145 and 170-173: Solution(k, count_from_zero = ...) and Solution(frame = k) *)
Inductive how := Positional (count_from_zero : option bool) | Keyword.
(** solution.py:96-101 and 138-144: start_frame of a solution that was read *)
Definition start_frame (h : how) (frame : Z) : Z :=
  match h with Positional (Some false) => frame | _ => 0%Z end.

Section Disk.
Context {P F : Type}.
Variables (path prefix : text) (pa : patch).
(** The state of a solution: q, aux and time are those of TimeModel *)
Definition state_of (u : sol array (option array)) : state := mkState pa (st u) (sq u) None (sx u).
(** controller.py:343-350 and 376-382: the frames among the files of a run, one after the other *)
Fixpoint save (outs : list (output array (option array) P F)) (fs : files) : HdfModel.result files :=
  match outs with
  | [] => Ok fs
  | WriteQ n aux u :: r => fs' <- solution_write fs path (Some prefix) n aux [state_of u] ;; save r fs'
  | _ :: r => save r fs
  end.
(** A crash while one of the files is being written: those before it are complete, among them the frame [frame] with
    the solution [u]; nothing is known about the contents of the file itself. *)
Definition crashed_after (outs : list (output array (option array) P F)) (fs fs' : files) (frame : Z) (u : sol array (option array)) : Prop :=
  exists done rest fs1 aux, outs = done ++ rest /\ save done fs = Ok fs1 /\ In (WriteQ frame aux u) done /\
    match rest with
    | WriteQ n _ _ :: _ => forall name, name <> file_name path prefix n -> fs' name = fs1 name
    | _ => fs' = fs1
    end.
End Disk.
