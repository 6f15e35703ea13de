(** HDF5 frames of parallel runs: the file does not depend on the processes. *)
From Coq Require Import Ascii String Permutation Sorting.Sorted.
From Verif Require Import Base FormatModel FormatProofs AsciiProofs2 HdfModel HdfSpec HdfProofs HdfProps PHdfModel PHdfSpec PHdfProofs.
Open Scope Q_scope.

(** C149: the file written by the processes together is the file the serial program writes, whatever boxes the processes hold
    and in whatever order they write; if the serial program fails, this one fails in the same way. *)
Theorem C149_same_file fs path prefix frame wa wp l dl :
  Forall2 in_parts l dl ->
  match write fs path prefix frame wa wp l with
  | Ok fs' => exists fs2, par_write false fs path prefix frame wa wp dl = Written fs2 /\ forall name, fs2 name = fs' name
  | Err e => par_write false fs path prefix frame wa wp dl = Failed e
  end.
Proof.
  intros H. unfold par_write, write. rewrite (par_write_same wa wp l dl H). destruct (write_states wa wp l []) as [f|e]; cbn [bind]; [|reflexivity].
  eexists. split; [reflexivity|]. intros name. reflexivity.
Qed.
(** Compression is refused before anything is written. *)
Theorem C149_compression fs path prefix frame wa wp dl : par_write true fs path prefix frame wa wp dl = Compressed.
Proof. reflexivity. Qed.
(** A frame written by one set of processes is read by any other: every process gets its part of every patch. *)
Theorem C149_round_trip fs path prefix frame wa ra l dl :
  Forall2 in_parts l dl -> NoDup (map (fun s => p_index (s_patch s)) l) ->
  exists fs' l',
    par_write false fs path prefix frame wa false dl = Written fs'
    /\ Permutation l l' /\ in_order l'
    /\ (forall name, name <> file_name path prefix frame -> fs' name = fs name)
    /\ forall range, (forall s, In s l -> box_of (map d_n (p_dims (s_patch s))) (range (map d_n (p_dims (s_patch s))))) ->
       exists r, par_read range fs' path prefix frame ra [] = Ok r
         /\ Forall2 (fun s s' => share (range (map d_n (p_dims (s_patch s)))) (back (wa && ra) s) s') l' r.
Proof.
  intros H HI. assert (HS : Forall storable l) by (clear HI; induction H as [|s d l dl H HF IH]; constructor; [apply H|exact IH]).
  assert (HW : Forall whole l) by (clear HI HS; induction H as [|s d l dl H HF IH]; constructor; [apply H|exact IH]).
  destruct (written wa l (names_of_indices l HS HI)) as (l' & P & O & E). unfold par_write. rewrite (par_write_same wa false l dl H), E.
  eexists. exists l'. split; [reflexivity|]. split; [exact P|]. split; [exact O|]. split.
  - intros n Hn. cbv beta. destruct (text_eqb n (file_name path prefix frame)) eqn:K; [|reflexivity]. apply text_eqb_true in K. contradiction.
  - intros range HR. unfold par_read. rewrite text_eqb_refl.
    destruct (par_reads_back wa ra range l' (Permutation_Forall P HS) (Permutation_Forall P HW)) as (r & R1 & R2).
    { apply Forall_forall. intros s Hs. apply HR. exact (Permutation_in _ (Permutation_sym P) Hs). }
    exists r. rewrite R1. split; [reflexivity|exact R2].
Qed.
(** Frames of serial runs can be read by parallel ones and the other way round. *)
Theorem C149_serial_frames fs path prefix frame wa l fs' :
  Forall storable l -> Forall whole l -> NoDup (map (fun s => p_index (s_patch s)) l) ->
  write fs path prefix frame wa false l = Ok fs' ->
  exists l', Permutation l l' /\
    forall range ra, (forall s, In s l -> box_of (map d_n (p_dims (s_patch s))) (range (map d_n (p_dims (s_patch s))))) ->
    exists r, par_read range fs' path prefix frame ra [] = Ok r
      /\ Forall2 (fun s s' => share (range (map d_n (p_dims (s_patch s)))) (back (wa && ra) s) s') l' r.
Proof.
  intros HS HW HI W. destruct (written wa l (names_of_indices l HS HI)) as (l' & P & O & E). unfold write in W. rewrite E in W. cbn [bind] in W.
  injection W as <-. exists l'. split; [exact P|]. intros range ra HR. unfold par_read. rewrite text_eqb_refl.
  destruct (par_reads_back wa ra range l' (Permutation_Forall P HS) (Permutation_Forall P HW)) as (r & R1 & R2).
  { apply Forall_forall. intros s Hs. apply HR. exact (Permutation_in _ (Permutation_sym P) Hs). }
  exists r. rewrite R1. split; [reflexivity|exact R2].
Qed.

(** Three by two cells on two processes, the second of which writes first; read by a process that holds the upper row. *)
Definition ex3 : state :=
  mkState (mkPatch (Some 4%Z) (Some 1%Z) [mkDim 0 3 3 (lit "x") None; mkDim 0 1 2 (lit "y") None]) (1 # 2)
    (mkArray [2; 3; 2]%Z (Some [1; 2; 3; 4; 5; 6; 7; 8; 9; 10; 11; 12])) None (Some (mkArray [1; 3; 2]%Z (Some [21; 22; 23; 24; 25; 26]))).
Definition ex_b1 : box := [(0, 1); (0, 2)]%Z.
Definition ex_b2 : box := [(1, 3); (0, 2)]%Z.
Definition ex_q1 := mkArray [2; 1; 2]%Z (Some [1; 2; 7; 8]).
Definition ex_q2 := mkArray [2; 2; 2]%Z (Some [3; 4; 5; 6; 9; 10; 11; 12]).
Definition ex_a1 := mkArray [1; 1; 2]%Z (Some [21; 24]).
Definition ex_a2 := mkArray [1; 2; 2]%Z (Some [22; 23; 25; 26]).
Definition ex_d : dstate := [(ex_b2, mkState (s_patch ex3) (1 # 2) ex_q2 None (Some ex_a2)); (ex_b1, mkState (s_patch ex3) (1 # 2) ex_q1 None (Some ex_a1))].
Lemma ex3_storable : storable ex3.
Proof.
  constructor; cbn.
  - repeat constructor; cbn; try lia; try lra; try discriminate.
  - repeat constructor; cbn; intuition discriminate.
  - discriminate.
  - discriminate.
  - exists 2%Z. split; [lia|reflexivity].
  - split; [|cbn; lia]. exists 1%Z. split; [lia|reflexivity].
Qed.
Lemma ex_part b a a' : box_of [3; 2]%Z b -> a_shape a = rows a :: [3; 2]%Z -> (0 <= rows a)%Z -> a' = cut b a -> part b a a'.
Proof. intros H1 H2 H3 ->. exact (proj1 (cut_part b a _ _ H2 H3 H1)). Qed.
Lemma ex_box1 : box_of [3; 2]%Z ex_b1. Proof. repeat constructor; cbn; lia. Qed.
Lemma ex_box2 : box_of [3; 2]%Z ex_b2. Proof. repeat constructor; cbn; lia. Qed.
Lemma ex_in_parts : in_parts ex3 ex_d.
Proof.
  split; [exact ex3_storable|]. split.
  - split; [reflexivity|]. split; [exact I|]. split; [reflexivity|]. cbn. lia.
  - exists [ex_b2; ex_b1]. change (map d_n (p_dims (s_patch ex3))) with [3; 2]%Z. split.
    + split; [discriminate|]. split; [constructor; [exact ex_box2|constructor; [exact ex_box1|constructor]]|].
      intros jx H. inversion H as [|n i s r Hi Hr]; subst. inversion Hr as [|n2 i2 s2 r2 Hi2 Hr2]; subst. inversion Hr2; subst.
      destruct (Z_lt_dec i 1); [apply Exists_cons_tl, Exists_cons_hd|apply Exists_cons_hd]; cbn [inside ex_b1 ex_b2]; rewrite !andb_true_iff, !Z.leb_le, !Z.ltb_lt; repeat split; lia.
    + constructor; [|constructor; [|constructor]]; (split; [reflexivity|]); (split; [reflexivity|]); (split; [reflexivity|]); cbn [snd s_q s_p s_aux ex3 part_option].
      * split; [apply ex_part; [exact ex_box2|reflexivity|cbn; lia|reflexivity]|]. split; [exact I|]. apply ex_part; [exact ex_box2|reflexivity|cbn; lia|reflexivity].
      * split; [apply ex_part; [exact ex_box1|reflexivity|cbn; lia|reflexivity]|]. split; [exact I|]. apply ex_part; [exact ex_box1|reflexivity|cbn; lia|reflexivity].
Qed.
Example C149_example : Forall2 in_parts [ex3] [ex_d] /\ NoDup (map (fun s => p_index (s_patch s)) [ex3]).
Proof. split; [constructor; [exact ex_in_parts|constructor]|]. repeat constructor. intros []. Qed.
Example C149_example_file : exists fs',
  par_write false (fun _ => None) (lit "out") (lit "claw") 0 true false [ex_d] = Written fs'
  /\ option_map (map (fun x => map snd (g_sets (snd x)))) (fs' (lit "out/claw0000.hdf")) = Some [[s_q ex3; match s_aux ex3 with Some a => a | None => s_q ex3 end]]
  /\ par_read (fun _ => [(0, 3); (1, 2)]%Z) fs' (lit "out") (lit "claw") 0 true []
     = Ok [mkState (s_patch ex3) (1 # 2) (mkArray [2; 3; 1]%Z (Some [7; 8; 9; 10; 11; 12])) None (Some (mkArray [1; 3; 1]%Z (Some [24; 25; 26])))].
Proof. eexists. split; [vm_compute; reflexivity|]. split; vm_compute; reflexivity. Qed.
(** Asking for derived quantities that were never set fails on both sides. *)
Example C149_example_fails : par_write false (fun _ => None) (lit "out") (lit "claw") 0 true true [ex_d] = Failed NoArray
  /\ write (fun _ => None) (lit "out") (lit "claw") 0 true true [ex3] = Err NoArray.
Proof. split; vm_compute; reflexivity. Qed.

Print Assumptions C149_same_file.
Print Assumptions C149_compression.
Print Assumptions C149_round_trip.
Print Assumptions C149_serial_frames.
