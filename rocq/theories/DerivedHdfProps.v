(** C135 for HDF5 output: frames of derived quantities (write_p=True); C136: reading into a solution that has states. *)
From Coq Require Import Ascii String Permutation.
From Verif Require Import Base FormatModel HdfModel HdfSpec HdfProofs HdfProps.
Open Scope Q_scope.

(** The derived quantities in place of the components *)
Definition as_components (s : state) : state :=
  mkState (s_patch s) (s_t s) (match s_p s with Some p => p | None => s_q s end) None (s_aux s).
Definition as_many_derived (s : state) : Prop := exists p, s_p s = Some p /\ rows p = rows (s_q s).

Lemma same_group wa s : as_many_derived s -> group_of wa true s = group_of wa false (as_components s).
Proof. intros (p & E & R). unfold group_of, attrs_of, as_components. cbn [s_patch s_t s_q s_p s_aux num_aux]. rewrite E, R. reflexivity. Qed.
Lemma same_states wa : forall l f, Forall as_many_derived l -> write_states wa true l f = write_states wa false (map as_components l) f.
Proof.
  induction l as [|s l IH]; intros f H; [reflexivity|]. cbn [write_states map]. rewrite (same_group wa s (Forall_inv H)).
  change (group_name (as_components s)) with (group_name s). destruct (group_of wa false (as_components s)) as [g|e]; cbn [bind]; [|reflexivity].
  destruct (add_group (group_name s) g f) as [f'|e]; cbn [bind]; [|reflexivity]. apply IH. exact (Forall_inv_tail H).
Qed.
Theorem C135_hdf_partial fs path prefix frame wa ra l :
  l <> [] -> Forall as_many_derived l -> Forall (fun s => storable (as_components s)) l -> NoDup (map (fun s => p_index (s_patch s)) l) ->
  exists fs' l', write fs path prefix frame wa true l = Ok fs' /\ Permutation l l' /\
    read fs' path prefix frame ra [] = Ok (map (fun s => back (wa && ra) (as_components s)) l') /\
    (forall name, name <> file_name path prefix frame -> fs' name = fs name).
Proof.
  intros HN HM HS HI. destruct (C106_round_trip fs path prefix frame wa ra (map as_components l)) as (fs' & l' & W & P & R & O).
  - destruct l; [congruence|discriminate].
  - apply Forall_map. exact HS.
  - rewrite map_map. exact HI.
  - apply Permutation_sym in P. destruct (Permutation_map_inv _ _ P) as (l2 & E & P2). subst l'. exists fs', l2. split; [|split; [exact P2|split; [|exact O]]].
    + unfold solution_write, write in W. unfold write. rewrite (same_states wa l [] HM).
      destruct (write_states wa false (map as_components l) []) as [f|e]; cbn [bind] in *; [|discriminate].
      destruct l; [congruence|]. cbn [map] in W. exact W.
    + unfold solution_read in R. rewrite map_map in R. exact R.
Qed.
Print Assumptions C135_hdf_partial.

(** With another number of derived quantities the frame is written but cannot be read. *)
Lemma dims_by_attrs A s1 s2 : forall names, read_dims (mkGroup A s1) names = read_dims (mkGroup A s2) names.
Proof. induction names as [|n r IH]; [reflexivity|]. cbn [read_dims]. rewrite IH. reflexivity. Qed.
Lemma other_size ra A s1 s2 st q q' : read_group ra (mkGroup A s1) = Ok st -> assoc (lit "q") s1 = Some q -> assoc (lit "q") s2 = Some q' ->
  size (a_shape q') <> size (a_shape q) -> read_group ra (mkGroup A s2) = Err BadShape.
Proof.
  intros R E1 E2 N. unfold read_group in *. cbn [g_attrs g_sets] in *.
  destruct (assoc (lit "dimensions") A) as [[| | |names]|]; try discriminate R. rewrite (dims_by_attrs A s2 s1).
  destruct (read_dims (mkGroup A s1) names) as [ds|e]; cbn [bind] in *; [|discriminate R].
  unfold num_attr, int_attr in *. cbn [g_attrs] in *.
  repeat match type of R with context [assoc ?k A] => destruct (assoc k A) as [[| | |]|]; cbn [bind] in *; try discriminate R end.
  rewrite E1 in R. rewrite E2. destruct (new_array _ ds) as [q0|]; [|discriminate R].
  unfold reshaped in *. destruct (size (a_shape q) =? size (a_shape q0))%Z eqn:C; cbn [bind] in R; [|discriminate R].
  apply Z.eqb_eq in C. replace (size (a_shape q') =? size (a_shape q0))%Z with false by (symmetry; apply Z.eqb_neq; congruence). reflexivity.
Qed.
Theorem C135_hdf_other_number fs path prefix frame wa ra s p :
  storable s -> s_p s = Some p -> size (a_shape p) <> size (a_shape (s_q s)) ->
  exists fs', write fs path prefix frame wa true [s] = Ok fs' /\ read fs' path prefix frame ra [] = Err BadShape.
Proof.
  intros HS HP HN. unfold write. cbn [write_states]. unfold group_of at 1. rewrite HP. cbn [bind add_group].
  eexists. split; [reflexivity|]. unfold read. rewrite text_eqb_refl. cbn [read_groups].
  pose proof (read_group_back wa ra s HS) as R. unfold stored in R.
  match goal with |- context [read_group ra ?g] => assert (E : read_group ra g = Err BadShape) end.
  { apply (other_size ra _ _ _ _ (s_q s) p R); [reflexivity|reflexivity|exact HN]. }
  rewrite E. reflexivity.
Qed.
Print Assumptions C135_hdf_other_number.
Definition p_state (i : Z) (n : Z) (v : list Q) : state :=
  mkState (s_patch (ex_state i)) (s_t (ex_state i)) (s_q (ex_state i)) (Some (mkArray [n; 2; 1]%Z (Some v))) (s_aux (ex_state i)).
Theorem C135_hdf_refuted : exists s p fs', storable s /\ s_p s = Some p /\
  write (fun _ => None) (lit "_p") (lit "claw_p") 0 false true [s] = Ok fs' /\ read fs' (lit "_p") (lit "claw_p") 0 false [] = Err BadShape.
Proof.
  assert (HS : storable (p_state 1 1 [7; 8])) by (destruct (ex_storable 1) as [A B C E F G]; constructor; assumption).
  destruct (C135_hdf_other_number (fun _ => None) (lit "_p") (lit "claw_p") 0 false false (p_state 1 1 [7; 8]) _ HS eq_refl ltac:(cbn; lia)) as (fs' & W & R).
  exists (p_state 1 1 [7; 8]). eexists. exists fs'. split; [exact HS|]. split; [reflexivity|]. split; [exact W|exact R].
Qed.
Print Assumptions C135_hdf_refuted.
Example C135_hdf_example : exists fs' : files,
  write (fun _ => None) (lit "_p") (lit "claw_p") 0 false true [p_state 1 2 [7; 8; 9; 10]] = Ok fs' /\
  read fs' (lit "_p") (lit "claw_p") 0 false [] =
  Ok [mkState (s_patch (ex_state 1)) (1 # 2) (mkArray [2; 2; 1]%Z (Some [7; 8; 9; 10])) None (Some (mkArray [1; 2; 1]%Z None))].
Proof. eexists. split; [vm_compute; reflexivity|vm_compute; reflexivity]. Qed.

(** ** C136: a frame that is read comes after the states that the solution had *)
Theorem C136_hdf_appends fs path prefix frame ra old :
  read fs path prefix frame ra old = match read fs path prefix frame ra [] with Ok new => Ok (old ++ new) | Err e => Err e end.
Proof. unfold read. destruct (fs (file_name path prefix frame)) as [f|]; [|reflexivity]. destruct (read_groups ra f) as [ss|e]; reflexivity. Qed.
Print Assumptions C136_hdf_appends.
