(** VTK output: marks of covered cells, effect on the solution, datasets. *)
From Coq Require Import Ascii String Lqa.
From Verif Require Import Base FormatModel VtkModel VtkSpec VtkProofs.
Open Scope Q_scope.

Lemma write_states single fs path prefix frame l :
  fst (write single fs path prefix frame l) = map (fun s => mkState (s_patch s) (s_q s ++ [status l s])) l.
Proof. reflexivity. Qed.

(** C123: exactly the cells covered by patches of the next level are marked (8; the others 0). Every covered cell is
    marked; *)
Theorem C123_covered_cells_are_marked single fs path prefix frame l n s :
  (forall a, In a l -> valid_patch (s_patch a)) -> all_aligned l -> nth_error l n = Some s ->
  exists s' st, nth_error (fst (write single fs path prefix frame l)) n = Some s' /\ s_q s' = s_q s ++ [st] /\
    forall i j, in_patch (s_patch s) i j -> (covered l s i j -> st i j = 8) /\ (st i j = 8 \/ st i j = 0).
Proof.
  intros V A E. exists (mkState (s_patch s) (s_q s ++ [status l s])), (status l s).
  split; [rewrite write_states, nth_error_map, E; reflexivity|]. split; [reflexivity|]. intros i j I.
  split; [|apply status_0]. intros (f & If & C). apply status_8. exists f. split; [exact If|].
  pose proof (nth_error_In _ _ E) as Is. apply covers_marks; [exact (V s Is)| |exact I|exact C].
  apply A; [exact If|exact Is|exact (proj1 C)].
Qed.
Print Assumptions C123_covered_cells_are_marked.

(** no other cell is when no patch of the next level begins before the patch and also ends before its end. *)
Theorem C123_marks_partial single fs path prefix frame l n s :
  (forall a, In a l -> valid_patch (s_patch a)) -> all_aligned l -> none_before l -> nth_error l n = Some s ->
  exists s' st, nth_error (fst (write single fs path prefix frame l)) n = Some s' /\ s_q s' = s_q s ++ [st] /\
    forall i j, in_patch (s_patch s) i j -> (st i j = 8 <-> covered l s i j) /\ (st i j = 8 \/ st i j = 0).
Proof.
  intros V A B E. exists (mkState (s_patch s) (s_q s ++ [status l s])), (status l s).
  split; [rewrite write_states, nth_error_map, E; reflexivity|]. split; [reflexivity|]. intros i j I.
  split; [|apply status_0]. rewrite status_8. pose proof (nth_error_In _ _ E) as Is. split.
  - intros (f & If & M). exists f. split; [exact If|]. pose proof (proj1 (marks_iff _ _ _ _) M) as (L & _).
    apply marks_covers; [exact (V s Is)|exact (A f s If Is L)|exact (B f s If Is L)|exact I|exact M].
  - intros (f & If & C). exists f. split; [exact If|].
    apply covers_marks; [exact (V s Is)|exact (A f s If Is (proj1 C))|exact I|exact C].
Qed.
Print Assumptions C123_marks_partial.

(** Two coarse patches side by side, and a fine one inside the first: cells of the second are marked as well *)
Definition ex_left : patch := mkPatch 1 0 1 2 0 1 2.
Definition ex_right : patch := mkPatch 1 1 2 2 0 1 2.
Definition ex_fine : patch := mkPatch 2 0 (1 # 2) 4 (1 # 2) 1 4.
Definition ex_state (p : patch) (v : Q) : state := mkState p [fun i j => v + inject_Z i; fun i j => v * inject_Z j].
Definition ex_states : list state := [ex_state ex_left 1; ex_state ex_right 2; ex_state ex_fine 3].

Lemma ex_valid a : In a ex_states -> valid_patch (s_patch a).
Proof. intros [<-|[<-|[<-|[]]]]; repeat split; reflexivity. Qed.
Lemma ex_aligned : all_aligned ex_states.
Proof.
  intros f s Hf Hs L.
  destruct Hf as [<-|[<-|[<-|[]]]], Hs as [<-|[<-|[<-|[]]]]; try discriminate L; cbn [ex_state s_patch].
  - repeat split; [exists 0%Z|exists 1%Z|exists 1%Z|exists 2%Z]; reflexivity.
  - repeat split; [exists (-2)%Z|exists (-1)%Z|exists 1%Z|exists 2%Z]; reflexivity.
Qed.
Theorem C123_marks_refuted : exists l n s i j s' st,
  (forall a, In a l -> valid_patch (s_patch a)) /\ all_aligned l /\ nth_error l n = Some s /\ in_patch (s_patch s) i j /\
  (forall single fs path prefix frame, nth_error (fst (write single fs path prefix frame l)) n = Some s') /\
  s_q s' = s_q s ++ [st] /\ st i j = 8 /\ ~ covered l s i j.
Proof.
  exists ex_states, 1%nat, (ex_state ex_right 2), 0%Z, 1%Z. eexists _, (status ex_states (ex_state ex_right 2)).
  split; [exact ex_valid|]. split; [exact ex_aligned|]. split; [reflexivity|]. split; [split; cbn; lia|].
  split; [intros; reflexivity|]. split; [reflexivity|]. split; [vm_compute; reflexivity|].
  intros (f & If & (L & Cx & _)). destruct If as [<-|[<-|[<-|[]]]]; try discriminate L.
  destruct Cx as (_ & Cx). vm_compute in Cx. discriminate Cx.
Qed.
Print Assumptions C123_marks_refuted.

Definition ex_nested : list state := [ex_state ex_left 1; ex_state ex_fine 3].
Example C123_example : all_aligned ex_nested /\ none_before ex_nested /\
  map (fun ij => status ex_nested (ex_state ex_left 1) (fst ij) (snd ij)) [(0, 0); (1, 0); (0, 1); (1, 1)]%Z = [0; 0; 8; 0].
Proof.
  split; [|split; [|vm_compute; reflexivity]]; intros f s Hf Hs L;
    destruct Hf as [<-|[<-|[]]], Hs as [<-|[<-|[]]]; try discriminate L; cbn [ex_state s_patch].
  - repeat split; [exists 0%Z|exists 1%Z|exists 1%Z|exists 2%Z]; reflexivity.
  - split; left; cbn; lra.
Qed.

(** C124: writing does not change the solution. False: each write, whether it succeeds or not, gives every state one
    more component; the patches and the other components stay. *)
Theorem C124_one_more_component single fs path prefix frame l :
  Forall2 (fun s s' => s_patch s' = s_patch s /\ exists st, s_q s' = s_q s ++ [st])
    l (fst (write single fs path prefix frame l)).
Proof.
  rewrite write_states. set (f := fun s => mkState (s_patch s) (s_q s ++ [status l s])).
  assert (K : forall r, Forall2 (fun s s' => s_patch s' = s_patch s /\ exists st, s_q s' = s_q s ++ [st]) r (map f r)).
  { induction r as [|s r IH]; constructor; [|exact IH]. split; [reflexivity|]. exists (status l s). reflexivity. }
  apply K.
Qed.
Print Assumptions C124_one_more_component.
Theorem C124_always_changed single fs path prefix frame l :
  l <> [] -> fst (write single fs path prefix frame l) <> l.
Proof.
  intros N E. destruct l as [|s l]; [congruence|]. rewrite write_states in E. cbn [map] in E.
  apply (f_equal (fun r => match r with a :: _ => length (s_q a) | [] => 0%nat end)) in E.
  cbn [s_q] in E. rewrite app_length in E. cbn [length] in E. lia.
Qed.
Print Assumptions C124_always_changed.
Theorem C124_unchanged_refuted : exists l fs fs' path prefix frame,
  (forall a, In a l -> valid_patch (s_patch a)) /\ snd (write (fun x => x) fs path prefix frame l) = Ok fs' /\
  fst (write (fun x => x) fs path prefix frame l) <> l.
Proof.
  exists ex_states, (fun _ => None). eexists. exists (lit "_output"), (lit "claw"), 0%Z. split; [exact ex_valid|].
  split; [cbn; reflexivity|]. apply C124_always_changed. discriminate.
Qed.
Print Assumptions C124_unchanged_refuted.
(** The marks of an earlier write are a component of q for the next one *)
Theorem C124_second_write single fs fs' path path' prefix prefix' frame frame' l n s :
  nth_error l n = Some s ->
  exists st s', nth_error (fst (write single fs' path' prefix' frame' (fst (write single fs path prefix frame l)))) n = Some s' /\
    s_patch s' = s_patch s /\ exists st', s_q s' = s_q s ++ [st; st'] /\ forall i j, st' i j = st i j.
Proof.
  intro E. rewrite !write_states, map_map. exists (status l s). eexists. split; [rewrite nth_error_map, E; reflexivity|].
  split; [reflexivity|]. eexists. cbn [s_q s_patch]. split; [rewrite <- app_assoc; reflexivity|].
  intros i j. unfold status. cbn [s_patch].
  assert (K : forall r, existsb (fun f => marks (s_patch s) (s_patch f) i j)
            (map (fun s0 => mkState (s_patch s0) (s_q s0 ++ [fun i0 j0 => if existsb (fun f => marks (s_patch s0) (s_patch f) i0 j0) l then 8 else 0])) r) =
          existsb (fun f => marks (s_patch s) (s_patch f) i j) r).
  { induction r as [|a r IH]; [reflexivity|]. cbn [map existsb s_patch]. rewrite IH. reflexivity. }
  rewrite <- (K l). reflexivity.
Qed.
Print Assumptions C124_second_write.
Example C124_example : map (fun s => length (s_q s))
  (fst (write (fun x => x) (fun _ => None) [] [] 0 (fst (write (fun x => x) (fun _ => None) [] [] 0 ex_states)))) = [4; 4; 4]%nat.
Proof. reflexivity. Qed.

(** C125: the file has every patch, at its level, with its place, cells and values. Proved when the levels 1 .. n first
    occur in this order among the states; *)
Theorem C125_datasets_partial single fs path prefix frame l :
  l <> [] -> (forall a, In a l -> valid_patch (s_patch a)) -> levels_in_order l -> same_spacing l ->
  exists fs' a, snd (write single fs path prefix frame l) = Ok fs' /\ fs' (file_name path prefix frame) = Some a /\
    (forall x, x <> file_name path prefix frame -> fs' x = fs x) /\
    length (m_sets a) = length l /\
    (forall k b s, nth_error (on_level (k + 1) l) b = Some s ->
       exists g st, In (k, b, g) (m_sets a) /\ grid_for single s st g /\
         In (mkState (s_patch s) (s_q s ++ [st])) (fst (write single fs path prefix frame l))) /\
    (forall k b g, In (k, b, g) (m_sets a) ->
       exists s st, nth_error (on_level (k + 1) l) b = Some s /\ grid_for single s st g).
Proof.
  intros N V (n & O) SS. set (l' := map (fun s => mkState (s_patch s) (s_q s ++ [status l s])) l).
  assert (O' : firsts [] l' = levels n) by (unfold l'; rewrite firsts_status; exact O).
  pose proof (fill_ok single l' n O') as F.
  assert (W : exists s0 r, l' = s0 :: r) by (unfold l'; destruct l as [|s0 r]; [congruence|]; eexists; eexists; reflexivity).
  destruct W as (s0 & r0 & W).
  set (A := mkAmr [p_xlo (s_patch s0); p_ylo (s_patch s0); 0] (flat_map (sets_of single l') (levels n))).
  exists (fun x => if text_eqb x (file_name path prefix frame) then Some A else fs x), A.
  split; [|split; [|split; [|split; [|split]]]].
  - unfold write. cbv zeta. cbn [snd]. change (set_status l) with l'. rewrite F. cbn [bind]. unfold A. rewrite W. reflexivity.
  - cbn beta. unfold text_eqb. destruct (list_eq_dec ascii_dec _ _) as [_|C]; [reflexivity|congruence].
  - intros x Hx. cbn beta. unfold text_eqb. destruct (list_eq_dec ascii_dec _ _) as [C|_]; [congruence|reflexivity].
  - unfold A. cbn [m_sets].
    assert (K : forall ks, length (flat_map (sets_of single l') ks) = length (flat_map (fun k => on_level k l') ks)).
    { induction ks as [|k ks IH]; [reflexivity|]. cbn [flat_map]. rewrite !app_length, IH. unfold sets_of.
      rewrite numbered_length. reflexivity. }
    rewrite K. change (flat_map (fun k => on_level k l') (levels n))
      with (flat_map (fun k => having (fun s => p_level (s_patch s)) k l') (levels n)).
    rewrite <- (sorted_having (fun s => p_level (s_patch s)) (levels n) (levels_sorted n)).
    + rewrite sorted_length. unfold l'. apply map_length.
    + intros s I. rewrite <- O'. apply firsts_in. exists s. split; [exact I|reflexivity].
  - intros k b s E. unfold A. cbn [m_sets]. eexists _, (status l s). split; [|split].
    + apply in_flat_map. exists (k + 1)%Z.
      assert (Is : In s l) by (apply nth_error_In in E; apply filter_In in E; tauto).
      split.
      * rewrite <- O'. unfold l'. rewrite firsts_status. apply firsts_in. exists s. split; [exact Is|].
        apply nth_error_In in E. apply filter_In in E. apply Z.eqb_eq. tauto.
      * unfold sets_of. apply numbered_in. split; [lia|]. exists b. eexists. split; [reflexivity|]. split; [|reflexivity].
        unfold l'. rewrite on_level_status, nth_error_map, E. reflexivity.
    + pose proof (nth_error_In _ _ E) as I. apply filter_In in I. destruct I as (I & L). apply Z.eqb_eq in L.
      destruct (V s I) as (Vx & Vy & _). apply grid_ok; [exact Vx|exact Vy|].
      unfold level_entry. cbn [v_spacing]. unfold l'. rewrite on_level_status.
      destruct (on_level (k + 1) l) as [|a r] eqn:EL; [destruct b; discriminate E|]. cbn [map].
      assert (Ia : In a (on_level (k + 1) l)) by (rewrite EL; left; reflexivity). apply filter_In in Ia.
      destruct Ia as (Ia & La). apply Z.eqb_eq in La. unfold spacing. cbn [s_patch].
      destruct (SS a s Ia I) as (X & Y); [congruence|]. repeat constructor; assumption.
    + rewrite write_states. apply in_map_iff. exists s. split; [reflexivity|]. apply nth_error_In in E. apply filter_In in E. tauto.
  - intros k b g I. unfold A in I. cbn [m_sets] in I. apply in_flat_map in I. destruct I as (k1 & _ & I). unfold sets_of in I.
    apply numbered_in in I. destruct I as (Ek & c & s' & Eb & E & Eg). assert (k1 = (k + 1)%Z) by lia. subst k1.
    cbn [Nat.add] in Eb. subst c. unfold l' in E. rewrite on_level_status, nth_error_map in E.
    destruct (nth_error (on_level (k + 1) l) b) as [s|] eqn:E0; [|discriminate E]. cbn [option_map] in E.
    assert (Es : s' = mkState (s_patch s) (s_q s ++ [status l s])) by congruence. subst s'.
    exists s, (status l s). split; [reflexivity|]. subst g.
    pose proof (nth_error_In _ _ E0) as I. apply filter_In in I. destruct I as (I & L). apply Z.eqb_eq in L.
    destruct (V s I) as (Vx & Vy & _). apply grid_ok; [exact Vx|exact Vy|].
    unfold level_entry. cbn [v_spacing]. unfold l'. rewrite on_level_status.
    destruct (on_level (k + 1) l) as [|a r] eqn:EL; [destruct b; discriminate E0|]. cbn [map].
    assert (Ia : In a (on_level (k + 1) l)) by (rewrite EL; left; reflexivity). apply filter_In in Ia.
    destruct Ia as (Ia & La). apply Z.eqb_eq in La. unfold spacing. cbn [s_patch].
    destruct (SS a s Ia I) as (X & Y); [congruence|]. repeat constructor; assumption.
Qed.
Print Assumptions C125_datasets_partial.

(** levels that leave out one from 1 on cannot be written: *)
Theorem C125_no_gaps single fs path prefix frame l fs' s :
  snd (write single fs path prefix frame l) = Ok fs' -> In s l -> (1 <= level_of s <= Z.of_nat (length (firsts [] l)))%Z.
Proof.
  unfold write. cbv zeta. cbn [snd]. unfold set_status. set (l' := map (fun s => mkState (s_patch s) (s_q s ++ [status l s])) l).
  intros E I. destruct l' as [|a r] eqn:El; [discriminate E|]. rewrite <- El in E.
  destruct (fill_levels single (level_count l') (blocks_per_level (level_count l')) (sorted (fun s => p_level (s_patch s)) l')) as [sets|] eqn:Ef; [|discriminate E].
  apply fill_levels_in in Ef. rewrite Forall_forall in Ef. unfold blocks_per_level in Ef.
  rewrite map_length, sorted_length, level_count_eq, map_length in Ef.
  assert (F : firsts [] l' = firsts [] l) by (unfold l'; apply firsts_status). rewrite F in Ef.
  specialize (Ef (level_entry l' (level_of s))). cbn [level_entry v_level] in Ef.
  assert (K : In (level_entry l' (level_of s)) (map (level_entry l') (firsts [] l))).
  { apply in_map. apply firsts_in. exists s. split; [exact I|reflexivity]. }
  specialize (Ef K). lia.
Qed.
Print Assumptions C125_no_gaps.

(** when the levels first occur in another order, patches are written at the wrong level. *)
Theorem C125_datasets_refuted : exists l a,
  (forall s, In s l -> valid_patch (s_patch s)) /\ same_spacing l /\ firsts [] l = [2; 1]%Z /\
  (forall single, exists fs', snd (write single (fun _ => None) (lit "_output") (lit "claw") 0 l) = Ok fs' /\
     fs' (file_name (lit "_output") (lit "claw") 0) = Some (a single)) /\
  exists s, nth_error (on_level 1 l) 0 = Some s /\
    forall single g st, In (0%Z, 0%nat, g) (m_sets (a single)) -> ~ grid_for single s st g.
Proof.
  exists [ex_state ex_fine 3; ex_state ex_left 1]. eexists. split; [|split; [|split; [reflexivity|split]]].
  - intros s [<-|[<-|[]]]; repeat split; reflexivity.
  - intros x y [<-|[<-|[]]] [<-|[<-|[]]] L; try discriminate L; split; reflexivity.
  - intro single. eexists. split; [cbn; reflexivity|]. cbn. reflexivity.
  - exists (ex_state ex_left 1). split; [reflexivity|]. intros single g st I (_ & _ & N & _).
    cbn in I. destruct I as [I|[I|[]]]; [discriminate I|].
    apply (f_equal (fun x => g_nodes (snd x))) in I. cbn [snd g_nodes] in I. rewrite <- I in N. discriminate N.
Qed.
Print Assumptions C125_datasets_refuted.
Example C125_example : levels_in_order ex_states /\ same_spacing ex_states /\
  match snd (write (fun x => x) (fun _ => None) (lit "_output") (lit "claw") 12 ex_states) with
  | Ok fs => match fs (lit "_output/claw0012.vthb") with Some a => map (fun x => (fst x, g_nodes (snd x))) (m_sets a) | None => [] end
  | Err _ => []
  end = [(0%Z, 0%nat, [3; 3; 1]%Z); (0%Z, 1%nat, [3; 3; 1]%Z); (1%Z, 0%nat, [5; 5; 1]%Z)].
Proof.
  split; [exists 2%nat; reflexivity|]. split; [|vm_compute; reflexivity].
  intros x y Hx Hy L. destruct Hx as [<-|[<-|[<-|[]]]], Hy as [<-|[<-|[<-|[]]]]; try discriminate L; split; reflexivity.
Qed.
