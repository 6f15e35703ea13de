(** What a run must leave behind. *)
From Verif Require Import Base TimeModel ControllerModel.

Section Spec.
Context {DQ DX E P F : Type}.

(** What is written for the frame with this number and this solution: the derived quantities and the
    solution if there is output at all, and a line of the functionals. *)
Definition frame_files (c : controller DQ DX P F) (frame : Z) (first : bool) (u : sol DQ DX) : list (output DQ DX P F) :=
  (if c_output c then
     (match c_p c with Some f => [WriteP frame u (f u)] | None => [] end) ++
     [WriteQ frame (c_aux_always c || (first && c_aux_init c)) u]
   else []) ++
  match c_F c with Some f => [WriteF first (st u) (f u)] | None => [] end.

(** The files of a whole run: frames [n], [n+1], ... with these solutions. *)
Fixpoint later_files (c : controller DQ DX P F) (n : Z) (us : list (sol DQ DX)) : list (output DQ DX P F) :=
  match us with
  | [] => []
  | u :: us' => frame_files c n false u ++ later_files c (n + 1) us'
  end.
Definition run_files (c : controller DQ DX P F) (n : Z) (u0 : sol DQ DX) (us : list (sol DQ DX)) : list (output DQ DX P F) :=
  frame_files c n true u0 ++ later_files c (n + 1) us.

End Spec.

(** Successive calls up to the first exception. *)
Fixpoint many {DQ DX E : Type} (evolve : solver E -> sol DQ DX -> option Q -> result DQ DX E) (s : solver E) (u : sol DQ DX)
    (args : list (option Q)) : solver E * sol DQ DX * option err :=
  match args with
  | [] => (s, u, None)
  | a :: args' =>
      let r := evolve s u a in
      match r_err r with
      | Some e => (r_solver r, r_sol r, Some e)
      | None => many evolve (r_solver r) (r_sol r) args'
      end
  end.
Definition many_sol {DQ DX E} (x : solver E * sol DQ DX * option err) : sol DQ DX := snd (fst x).
Definition many_err {DQ DX E} (x : solver E * sol DQ DX * option err) : option err := snd x.

(** The solver and the solution after the calls for the first [k] frames. *)
Definition reached {DQ DX E} (evolve : solver E -> sol DQ DX -> option Q -> result DQ DX E) (s : solver E) (u : sol DQ DX)
    (blocks : list (list (option Q))) (k : nat) := many evolve s u (concat (firstn k blocks)).

(** What the user asks for after the first frame, as calls of evolve_to_time for each further frame: one call
    for each further output time (style 1: [num_output_times] equal intervals up to [tfinal]; style 2: the
    list of output times), or [nstepout] single steps for each further frame (style 3: up to frame
    [num_output_times]). *)
Definition requested {DQ DX P F} (c : controller DQ DX P F) (start : Z) (t : Q) (blocks : list (list (option Q))) : Prop :=
  match c_style c with
  | 1%Z => exists ts, blocks = map (fun t => [Some t]) ts /\ Z.of_nat (length ts) = c_num c /\
             forall i x, nth_error ts i = Some x ->
               x == t + (c_tfinal c - t) * inject_Z (Z.of_nat i + 1) / inject_Z (c_num c)
  | 2%Z => blocks = map (fun t => [Some t]) (tl (c_times c))
  | _ => blocks = repeat (repeat None (Z.to_nat (c_nstepout c))) (Z.to_nat (c_num c - start))
  end.

(** The settings [run] accepts. *)
Definition acceptable {DQ DX E P F} (c : controller DQ DX P F) (w : world DQ DX E P F) : Prop :=
  ((c_style c = 1)%Z /\ (0 <= c_num c)%Z \/ c_style c = 2%Z /\ c_times c <> [] \/
   c_style c = 3%Z /\ (w_start w <= c_num c)%Z) /\ (c_output c = true -> w_dir w = true -> c_overwrite c = true).

(** Times that increase strictly, starting after [t]. *)
Fixpoint increasing (t : Q) (ts : list Q) : Prop :=
  match ts with
  | [] => True
  | x :: ts' => t < x /\ increasing x ts'
  end.
(** This call used every attempt it was allowed and at least one of them was rejected (see C02). *)
Definition out_of_attempts {DQ DX E} (n : Z) (r : result DQ DX E) : Prop :=
  Z.of_nat (length (r_trace r)) = n /\ exists ev, In ev (r_trace r) /\ ev_accepted ev = false.

(** The lines of F.txt after these outputs. *)
Fixpoint F_lines {DQ DX P F} (file : list (Q * F)) (outs : list (output DQ DX P F)) : list (Q * F) :=
  match outs with
  | [] => file
  | WriteF new t v :: r => F_lines ((if new then [] else file) ++ [(t, v)]) r
  | _ :: r => F_lines file r
  end.
(** The frames written, with their numbers. *)
Fixpoint frames_written {DQ DX P F} (outs : list (output DQ DX P F)) : list (Z * sol DQ DX) :=
  match outs with
  | [] => []
  | WriteQ n _ u :: r => (n, u) :: frames_written r
  | _ :: r => frames_written r
  end.
