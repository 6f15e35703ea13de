(** HDF5 frames: round trip, order of the patches, names of the files, auxiliary arrays, formats. *)
From Coq Require Import Ascii String Permutation Sorting.Sorted.
From Verif Require Import Base FormatModel FormatProofs AsciiProofs2 HdfModel HdfSpec HdfProofs.
Open Scope Q_scope.

(** C106: a frame of patches with different indices, written and read under the same prefix, gives back every patch with
    its time, dimensions, index, level and q bit for bit, and its aux if it was stored; no other file is touched. *)
Theorem C106_round_trip fs path prefix frame wa ra l :
  l <> [] -> Forall storable l -> NoDup (map (fun s => p_index (s_patch s)) l) ->
  exists fs' l',
    solution_write fs path (Some prefix) frame wa l = Ok fs'
    /\ Permutation l l'
    /\ solution_read fs' path (Prefix prefix) frame ra = Ok (map (back (wa && ra)) l')
    /\ (forall name, name <> file_name path prefix frame -> fs' name = fs name).
Proof.
  intros HN HS HI. destruct (written wa l (names_of_indices l HS HI)) as (l' & P & O & E).
  unfold solution_write, write. rewrite E. cbn [bind].
  eexists. exists l'. split; [destruct l; [congruence|reflexivity]|]. split; [exact P|]. split.
  - unfold solution_read, read. rewrite text_eqb_refl.
    rewrite (read_groups_back wa ra l'); [reflexivity| |reflexivity]. exact (Permutation_Forall P HS).
  - intros n Hn. cbv beta. destruct (text_eqb n (file_name path prefix frame)) eqn:K; [|reflexivity].
    apply text_eqb_true in K. contradiction.
Qed.
(** A frame already written stays readable when another frame is written under the same prefix. *)
Lemma file_name_frames path prefix m n : (0 <= m)%Z -> (0 <= n)%Z ->
  file_name path prefix m = file_name path prefix n -> m = n.
Proof.
  intros Hm Hn E. unfold file_name in E. apply app_inv_head in E. injection E as E. apply app_inv_head in E.
  apply app_inv_tail in E. exact (zfill4_inj m n Hm Hn E).
Qed.
Theorem C106_other_frames fs path prefix frame wa l fs' frame' ra :
  solution_write fs path (Some prefix) frame wa l = Ok fs' -> (0 <= frame)%Z -> (0 <= frame')%Z -> frame <> frame' ->
  solution_read fs' path (Prefix prefix) frame' ra = solution_read fs path (Prefix prefix) frame' ra.
Proof.
  intros H H1 H2 H3. unfold solution_write, write in H.
  destruct (write_states wa false l []) as [f|e]; cbn [bind] in H; [|discriminate].
  destruct l; [discriminate|]. injection H as <-. unfold solution_read, read.
  replace (text_eqb (file_name path prefix frame') (file_name path prefix frame)) with false; [reflexivity|].
  symmetry. apply Bool.not_true_iff_false. intro K. apply text_eqb_true in K.
  apply file_name_frames in K; [|assumption|assumption]. congruence.
Qed.
(** Patches with the same index (every patch starts with index 1) cannot be written: the first repeated name raises. *)
Theorem C106_same_index fs path prefix frame wa l :
  ~ NoDup (map group_name l) -> solution_write fs path prefix frame wa l = Err GroupExists.
Proof.
  intro H. unfold solution_write, write. rewrite (write_states_taken wa l [] H).
  - reflexivity.
  - intros n [].
  - constructor.
Qed.
Definition ex_dim := mkDim 0 1 2 (lit "x") (Some (lit "m")).
Definition ex_state (i : Z) : state :=
  mkState (mkPatch (Some i) (Some 1%Z) [ex_dim; mkDim (-1) 1 1 (lit "y.lower") None]) (1 # 2)
    (mkArray [2; 2; 1]%Z (Some [1; 2; 3; inject_Z i])) None (Some (mkArray [1; 2; 1]%Z (Some [5; 6]))).
Lemma ex_storable i : storable (ex_state i).
Proof.
  constructor; cbn.
  - repeat constructor; cbn; try lia; try lra; try discriminate.
  - repeat constructor; cbn; intuition discriminate.
  - discriminate.
  - discriminate.
  - exists 2%Z. split; [lia|reflexivity].
  - split; [|cbn; lia]. exists 1%Z. split; [lia|reflexivity].
Qed.
Example C106_example : exists fs' : files,
  solution_write (fun _ => None) (lit "out") (Some (lit "run")) 3 true [ex_state 7; ex_state 5] = Ok fs'
  /\ solution_read fs' (lit "out") (Prefix (lit "run")) 3 true = Ok [ex_state 5; ex_state 7].
Proof. eexists. split; [vm_compute; reflexivity|]. vm_compute. reflexivity. Qed.
Example C106_same_index_example :
  solution_write (fun _ => None) (lit "out") None 0 false [ex_state 1; ex_state 1] = Err GroupExists.
Proof. vm_compute. reflexivity. Qed.

(** C107: the patches come back in the order of the names of their groups; the order is kept exactly when the patches
    were in that order. *)
Theorem C107_order_partial fs path prefix frame wa ra l l' fs' :
  Forall storable l -> NoDup (map (fun s => p_index (s_patch s)) l) ->
  solution_write fs path (Some prefix) frame wa l = Ok fs' ->
  solution_read fs' path (Prefix prefix) frame ra = Ok l' ->
  (in_order l -> l' = map (back (wa && ra)) l) /\ in_order l'.
Proof.
  intros HS HI W R. destruct (written wa l (names_of_indices l HS HI)) as (l1 & P & O & E).
  unfold solution_write, write in W. rewrite E in W. cbn [bind] in W.
  destruct l as [|s l]; [discriminate|]. injection W as <-.
  unfold solution_read, read in R. rewrite text_eqb_refl in R.
  rewrite (read_groups_back wa ra l1) in R; [|exact (Permutation_Forall P HS)|reflexivity].
  cbn [bind app] in R. injection R as <-. split.
  - intro K. rewrite (in_order_unique _ _ K O P). reflexivity.
  - revert O. clear. unfold in_order. induction l1 as [|x l1 IH]; intro H; [constructor|].
    apply StronglySorted_inv in H. destruct H as (H1 & H2). cbn [map]. constructor; [exact (IH H1)|].
    rewrite Forall_forall in *. intros y Hy. apply in_map_iff in Hy. destruct Hy as (z & <- & Hz). exact (H2 z Hz).
Qed.
(** Patches numbered 2 and 10, in this order, come back as 10 and 2. *)
Theorem C107_order_refuted : exists l fs' l',
  Forall storable l /\ StronglySorted (fun a b => match p_index (s_patch a), p_index (s_patch b) with
                                                 | Some i, Some j => (i < j)%Z | _, _ => False end) l
  /\ solution_write (fun _ => None) (lit "out") (Some (lit "run")) 0 true l = Ok fs'
  /\ solution_read fs' (lit "out") (Prefix (lit "run")) 0 true = Ok l'
  /\ l = [ex_state 2; ex_state 10] /\ l' = [ex_state 10; ex_state 2].
Proof.
  exists [ex_state 2; ex_state 10]. eexists. exists [ex_state 10; ex_state 2]. split; [|split].
  - apply Forall_forall. intros s [<-|[<-|[]]]; apply ex_storable.
  - repeat constructor.
  - split; [vm_compute; reflexivity|]. split; [vm_compute; reflexivity|]. split; reflexivity.
Qed.
Example C107_example : in_order [ex_state 1; ex_state 10; ex_state 2].
Proof. repeat constructor. Qed.

(** C108: a frame written without giving a prefix is found when it is read with the prefix None ... *)
Theorem C108_no_prefix_partial fs path frame wa ra l : l <> [] -> Forall storable l ->
  NoDup (map (fun s => p_index (s_patch s)) l) ->
  exists fs' l', solution_write fs path None frame wa l = Ok fs' /\ Permutation l l'
    /\ solution_read fs' path NoPrefix frame ra = Ok (map (back (wa && ra)) l').
Proof.
  intros H1 H2 H3. destruct (C106_round_trip fs path (lit "claw") frame wa ra l H1 H2 H3) as (fs' & l' & E & P & R & _).
  exists fs', l'. split; [exact E|]. split; [exact P|exact R].
Qed.
(** ... but never when it is read without giving a prefix: what read then finds is what was there before. *)
Lemma prefixes_differ path m n : file_name path (lit "fort") m <> file_name path (lit "claw") n.
Proof. intro E. unfold file_name in E. apply app_inv_head in E. injection E as E. discriminate. Qed.
Theorem C108_defaults_differ fs path frame wa l fs' frame' ra :
  solution_write fs path None frame wa l = Ok fs' ->
  solution_read fs' path Omitted frame' ra = solution_read fs path Omitted frame' ra.
Proof.
  intro H. unfold solution_write, write in H.
  destruct (write_states wa false l []) as [f|e]; cbn [bind] in H; [|discriminate].
  destruct l; [discriminate|]. injection H as <-. unfold solution_read, read.
  match goal with |- context [text_eqb ?a ?b] => replace (text_eqb a b) with false end; [reflexivity|].
  symmetry. apply Bool.not_true_iff_false. intro K. apply text_eqb_true in K. exact (prefixes_differ _ _ _ K).
Qed.
Theorem C108_default_names_refuted : exists l fs',
  Forall storable l /\ solution_write (fun _ => None) (lit "out") None 0 true l = Ok fs'
  /\ solution_read fs' (lit "out") Omitted 0 true = Err NoFile.
Proof.
  exists [ex_state 1]. eexists. split; [constructor; [apply ex_storable|constructor]|].
  split; [vm_compute; reflexivity|]. vm_compute. reflexivity.
Qed.

(** C109: an auxiliary array that was stored comes back unchanged; one that was not comes back with the right shape and
    contents nobody determined, without an error. *)
Theorem C109_aux_partial fs path prefix frame wa ra l : l <> [] -> Forall storable l ->
  NoDup (map (fun s => p_index (s_patch s)) l) ->
  exists fs' r, solution_write fs path (Some prefix) frame wa l = Ok fs'
    /\ solution_read fs' path (Prefix prefix) frame ra = Ok r
    /\ Permutation (map s_aux r)
         (map (fun s => match s_aux s with
                        | Some a => Some (mkArray (a_shape a) (if (wa && ra)%bool then a_data a else None))
                        | None => None
                        end) l).
Proof.
  intros H1 H2 H3. destruct (C106_round_trip fs path prefix frame wa ra l H1 H2 H3) as (fs' & l' & E & P & R & _).
  exists fs', (map (back (wa && ra)) l'). split; [exact E|]. split; [exact R|].
  rewrite map_map. rewrite (Permutation_map _ P).
  match goal with |- Permutation ?a ?b => replace a with b; [apply Permutation_refl|] end.
  apply map_ext. intro s. unfold back. cbn [s_aux]. destruct (s_aux s) as [a|]; [|reflexivity].
  destruct (wa && ra)%bool; destruct a; reflexivity.
Qed.
Theorem C109_aux_refuted : exists s fs',
  storable s /\ s_aux s = Some (mkArray [1; 2; 1]%Z (Some [5; 6]))
  /\ solution_write (fun _ => None) (lit "out") (Some (lit "run")) 0 false [s] = Ok fs'
  /\ exists r, solution_read fs' (lit "out") (Prefix (lit "run")) 0 true = Ok [r]
               /\ s_aux r = Some (mkArray [1; 2; 1]%Z None).
Proof.
  exists (ex_state 1). eexists. split; [apply ex_storable|]. split; [reflexivity|].
  split; [vm_compute; reflexivity|]. eexists. split; [vm_compute; reflexivity|]. reflexivity.
Qed.

(** C110: the formats that pyclaw.Solution can both write and read, exactly. *)
Definition supported (f : text) : Prop := read_module f <> None /\ write_module f <> None.
Theorem C110_formats_partial f :
  supported f <-> f = lit "ascii" \/ f = lit "hdf5" \/ f = lit "forestclaw".
Proof.
  split.
  - intros (R & W). unfold write_module in W.
    destruct (text_eqb f (lit "forestclaw")) eqn:E1; [apply text_eqb_true in E1; tauto|].
    destruct (text_eqb f (lit "vtk")) eqn:E2; [apply text_eqb_true in E2; subst f; exfalso; apply R; reflexivity|].
    destruct (existsb (text_eqb f) _) eqn:E3; [|congruence]. apply existsb_exists in E3. destruct E3 as (g & Hg & E3).
    apply text_eqb_true in E3. subst g. cbn [In] in Hg.
    destruct Hg as [<-|[<-|[<-|[<-|[]]]]]; try tauto; exfalso; apply R; reflexivity.
  - intros [E|[E|E]]; subst f; split; discriminate.
Qed.
Theorem C110_same_module f : supported f -> read_module f = write_module f.
Proof. intro H. apply C110_formats_partial in H. destruct H as [E|[E|E]]; subst f; reflexivity. Qed.
Theorem C110_formats_refuted :
  (exists f, write_module f <> None /\ read_module f = None) /\ (exists f, read_module f <> None /\ write_module f = None).
Proof. split; [exists (lit "netcdf")|exists (lit "hdf")]; split; try reflexivity; discriminate. Qed.
Theorem C110_which :
  map (fun f => (write_module (lit f), read_module (lit f))) ["netcdf"; "claw_vtk"; "vtk"; "hdf"; "binary"; "binary64"; "petsc"]%string
  = [(Some (lit "netcdf"), None); (Some (lit "claw_vtk"), None); (Some (lit "claw_vtk"), None); (None, Some (lit "hdf5"));
     (None, Some (lit "binary")); (None, Some (lit "binary")); (None, Some (lit "petsc"))].
Proof. reflexivity. Qed.

Print Assumptions C106_round_trip.
Print Assumptions C106_other_frames.
Print Assumptions C106_same_index.
Print Assumptions C107_order_partial.
Print Assumptions C107_order_refuted.
Print Assumptions C108_no_prefix_partial.
Print Assumptions C108_defaults_differ.
Print Assumptions C108_default_names_refuted.
Print Assumptions C109_aux_partial.
Print Assumptions C109_aux_refuted.
Print Assumptions C110_formats_partial.
Print Assumptions C110_same_module.
Print Assumptions C110_formats_refuted.
