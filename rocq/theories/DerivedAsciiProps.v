(** C135 for ASCII output: frames of derived quantities (write_p=True). *)
From Coq Require Import Ascii String.
From Verif Require Import Base FormatModel FormatSpec AsciiModel AsciiSpec FormatProofs FormatProofs2 AsciiProofs AsciiProofs2 AsciiProofs3 AsciiProps.
Open Scope Q_scope.

Section D.
Context {D : Type}.
(** The derived quantities in place of the components *)
Definition as_components (s : @state D) : @state D :=
  mkState (s_patch s) (s_t s) (s_num_eqn s) (match s_p s with Some p => p | None => s_q s end) 0 None (s_num_aux s) (s_aux s) (s_data s).
Definition derived (sol : @solution D) : @solution D := mkSolution (map as_components (so_states sol)) (so_num_dim sol).
Definition as_many_derived (sol : @solution D) : Prop := Forall (fun s => s_p s <> None /\ s_mp s = s_num_eqn s) (so_states sol).

Lemma same_part (s : @state D) : s_p s <> None -> s_mp s = s_num_eqn s -> q_part true s = q_part false (as_components s).
Proof. intros H E. unfold q_part. cbn [as_components s_patch s_q s_num_eqn]. destruct (s_p s) as [p|]; [|congruence]. rewrite E. reflexivity. Qed.
Lemma same_parts (l : list (@state D)) : Forall (fun s => s_p s <> None /\ s_mp s = s_num_eqn s) l ->
  all_states (q_part true) l = all_states (q_part false) (map as_components l).
Proof.
  induction 1 as [|s l (H1 & H2) _ IH]; [reflexivity|]. cbn [all_states map]. rewrite (same_part s H1 H2), IH. reflexivity.
Qed.
Lemma same_aux (l : list (@state D)) : all_states a_part l = all_states a_part (map as_components l).
Proof. induction l as [|s l IH]; [reflexivity|]. cbn [all_states map]. rewrite IH. reflexivity. Qed.
Lemma same_write (fs : @files D) path prefix frame write_aux (sol : @solution D) : as_many_derived sol ->
  write fs path prefix frame write_aux true sol = write fs path prefix frame write_aux false (derived sol).
Proof.
  intro H. unfold write, derived. cbn [so_states]. pose proof (same_parts _ H) as E1. pose proof (same_aux (so_states sol)) as E2.
  destruct (so_states sol) as [|s0 l] eqn:E; [reflexivity|]. rewrite E1, E2. cbn [map]. unfold t_file. cbn [so_states so_num_dim as_components s_t s_num_eqn s_num_aux s_data].
  rewrite E. cbn [length]. rewrite map_length. reflexivity.
Qed.

(** With as many derived quantities as components a frame of derived quantities comes back as they were. *)
Theorem C135_ascii_partial (expand : text -> text) (fs : @files D) (path prefix : text) (frame : Z)
    (fmt : option text) (write_aux read_aux : bool) (sol : solution) t num_eqn num_aux data :
  (0 <= frame)%Z -> expand path = path -> as_many_derived sol -> writable (derived sol) t num_eqn num_aux data ->
  (write_aux = false -> fs (file_name path prefix "a" frame) = None /\ fs (file_name path prefix "a" 0) = None) ->
  exists fs' sol',
    solution_write expand fs path prefix frame write_aux true sol = Ok fs' /\
    solution_read expand fs' path prefix frame fmt read_aux [] = Ok sol' /\
    read_back ((0 <? num_aux)%nat && write_aux && read_aux) (derived sol) sol' /\
    (forall name, ~ In name [file_name path prefix "t" frame; file_name path prefix "q" frame;
                             file_name path prefix "a" frame; file_name path prefix "pkl" frame] ->
                  fs' name = fs name).
Proof.
  intros Hf He HM W Hold. unfold solution_write at 1. rewrite (same_write _ _ _ _ _ _ HM).
  exact (C40_ascii_round_trip expand fs path prefix frame fmt write_aux read_aux (derived sol) t num_eqn num_aux data Hf He W Hold).
Qed.
End D.
Print Assumptions C135_ascii_partial.

(** Two cells, one component and two derived quantities: reading gives the first one only. *)
Definition p_state (neq mp : nat) : @state unit :=
  mkState (mkPatch 1 1 [mkDimn 0 1 2 (lit "x")]) 0 neq (fun _ _ => 0) mp (Some (fun m ix => inject_Z (10 * m + nth 0 ix 0)%Z)) 0 None None.
Definition frame_of (neq mp : nat) : @solution unit := mkSolution [p_state neq mp] 1.
Definition no_files : @files unit := fun _ => None.
Definition values (r : result (@solution unit)) : option (nat * list Q) :=
  match r with
  | Ok sol => match so_states sol with [s] => Some (s_num_eqn s, map Qred (flat_map (fun m => [s_q s m [0%Z]; s_q s m [1%Z]]) [0; 1]%Z)) | _ => None end
  | Err _ => None
  end.
Definition then_read (r : result (@files unit)) : result (@solution unit) :=
  match r with Ok fs => solution_read (fun p => p) fs (lit "_p") (lit "claw_p") 0 None false [] | Err e => Err e end.
Theorem C135_ascii_refuted :
  values (then_read (solution_write (fun p => p) no_files (lit "_p") (lit "claw_p") 0 false true (frame_of 1 2))) = Some (1%nat, [0; 1; 0; 0]).
Proof. vm_compute. reflexivity. Qed.
(** Two components and one derived quantity: the first cell takes both values, and the frame cannot be read. *)
Theorem C135_ascii_short_refuted :
  then_read (solution_write (fun p => p) no_files (lit "_p") (lit "claw_p") 0 false true (frame_of 2 1)) = Err BadPatchData.
Proof. vm_compute. reflexivity. Qed.
Print Assumptions C135_ascii_refuted.
Print Assumptions C135_ascii_short_refuted.
Example C135_ascii_example :
  as_many_derived (frame_of 2 2) /\
  values (then_read (solution_write (fun p => p) no_files (lit "_p") (lit "claw_p") 0 false true (frame_of 2 2))) = Some (2%nat, [0; 1; 10; 11]).
Proof. split; [repeat constructor; discriminate|vm_compute; reflexivity]. Qed.

(** ** C136: reading into a solution that has states *)
(** What is read comes after the states that were there; without auxiliary arrays nothing else changes. *)
Theorem C136_ascii_appends {D : Type} (fs : @files D) (path prefix : text) (frame : Z) (prior : list state) :
  read fs path prefix frame false prior =
  match read fs path prefix frame false [] with
  | Ok sol => Ok (mkSolution (prior ++ so_states sol) (so_num_dim sol))
  | Err e => Err e
  end.
Proof.
  unfold read. destruct (match fs (read_name path prefix "pkl" frame) with Some (PickleFile d) => Ok d | Some _ => Err BadValue | None => Ok None end) as [data|e]; cbn [bind]; [|reflexivity].
  destruct (read_t fs path prefix frame) as [f|e]; cbn [bind]; [|reflexivity].
  destruct (open_text fs (read_name path prefix "q" frame)) as [h|e]; cbn [bind]; [|reflexivity].
  destruct (read_many (read_state f data) (Z.to_nat (f_nstates f)) h) as [(new & h')|e]; cbn [bind]; [|reflexivity].
  destruct new as [|n0 new]; [reflexivity|]. rewrite !andb_false_r. reflexivity.
Qed.
Print Assumptions C136_ascii_appends.
(** Frame 0 read twice into the same solution *)
Theorem C136_read_twice_refuted : exists fs s1 s2,
  solution_write (fun p => p) no_files (lit "out") (lit "fort") 0 false false (frame_of 2 2) = Ok fs /\
  solution_read (fun p => p) fs (lit "out") (lit "fort") 0 None false [] = Ok s1 /\ length (so_states s1) = 1%nat /\
  solution_read (fun p => p) fs (lit "out") (lit "fort") 0 None false (so_states s1) = Ok s2 /\ length (so_states s2) = 2%nat.
Proof. eexists. eexists. eexists. split; [reflexivity|]. split; [vm_compute; reflexivity|]. split; [reflexivity|]. split; [vm_compute; reflexivity|reflexivity]. Qed.
Print Assumptions C136_read_twice_refuted.
