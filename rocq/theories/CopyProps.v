(** Properties C47 and C78: copies of states and solutions. *)
From Verif Require Import Base CopyModel CopySpec CopyProofs.

(** *** C47: copies are complete and independent *)

(** After any program that changes states and makes deep copies (also of copies), every state has the values
    it would have if it shared nothing with any other, where a copy starts with the time, q, aux, problem data
    and patch of its original at that moment.  Not copied: the capacity index, keep_gauges, gauges, p and F. *)
Theorem C47_copies_are_independent_partial (h h' : store) (ss ss' : list state) (ops : list op) :
  separate h ss -> exec ops (h, ss) = (h', ss') ->
  length ss' = length (value_exec ops (map (values_of h) ss)) /\
  forall i s v, nth_error ss' i = Some s -> nth_error (value_exec ops (map (values_of h) ss)) i = Some v ->
    same_values (values_of h' s) v.
Proof.
  intros HS HE. assert (HA : agree h ss (map (values_of h) ss)).
  { split; [apply map_length|]. intros i s v Hs Hv. rewrite nth_error_map, Hs in Hv. cbn [option_map] in Hv. injection Hv as <-. apply same_refl. }
  destruct (exec_ok ops _ _ _ _ _ HS HA HE) as [_ [A B]]. split; [symmetry; exact A|exact B].
Qed.

Definition demo_patch : patch := mkPatch [(0, 1, 2%Z)] 1 1 5 [[1%Z]].
Definition demo_store : store := [Arr [1; 2]; Arr [3; 4]; Dict [(1%Z, 9)]; Pat demo_patch].
Definition demo_state : state :=
  mkState (fun f => match f with Fq => Some 0%nat | Faux => Some 1%nat | Fdata => Some 2%nat | Fpatch => Some 3%nat | _ => None end) (1 # 2) 0 true.
Example C47_case : separate demo_store [demo_state].
Proof.
  split.
  - intros [|[|i]] s f a Hi Ha; try discriminate Hi. injection Hi as <-. destruct f; cbn in Ha; injection Ha as <- || discriminate Ha; cbn; lia.
  - intros [|[|i]] [|[|j]] s s' f f' a Hi Hj Ha Hb; try discriminate Hi; try discriminate Hj. injection Hi as <-. injection Hj as <-.
    split; [reflexivity|]. destruct f, f'; cbn in Ha, Hb; congruence.
Qed.
Example C47_case_program :
  let '(h, ss) := exec [Copy 0; Change 0 (InPlace Fq (fun _ => Arr [7; 7])); Change 1 (Assign Faux None); Copy 1] (demo_store, [demo_state]) in
  map (fun s => v_obj (values_of h s) Fq) ss = [Some (Arr [7; 7]); Some (Arr [1; 2]); Some (Arr [1; 2])] /\
  map (fun s => v_obj (values_of h s) Faux) ss = [Some (Arr [3; 4]); None; None].
Proof. vm_compute. split; reflexivity. Qed.

(** The capacity index and the gauges of the original are not in the copy. *)
Theorem C47_copies_are_complete_refuted :
  exists h s h' s', separate h [s] /\ deepcopy_state h s = (h', s') /\
    s_capa s = 0%Z /\ s_capa s' = (-1)%Z /\ s_keep s = true /\ s_keep s' = false /\
    (exists p, v_obj (values_of h s) Fpatch = Some (Pat p) /\ p_gauges p <> []) /\
    (exists p, v_obj (values_of h' s') Fpatch = Some (Pat p) /\ p_gauges p = []).
Proof.
  exists demo_store, demo_state. destruct (deepcopy_state demo_store demo_state) as [h' s'] eqn:E. exists h', s'.
  split; [exact C47_case|]. split; [reflexivity|]. vm_compute in E. injection E as <- <-.
  split; [reflexivity|]. split; [reflexivity|]. split; [reflexivity|]. split; [reflexivity|].
  split; [exists demo_patch; split; [reflexivity|discriminate]|]. eexists. split; [reflexivity|]. reflexivity.
Qed.

(** *** C78: a copy of a solution is a solution like the original *)

(** In a solution the patch of the domain is the patch of the state; in a deep copy they are two objects, so
    that a change of the domain no longer reaches the state.  The number of the next frame is lost too. *)
Theorem C78_solution_copies_refuted :
  exists h (u : solution) h' u' s s' a a',
    sol_states u = [s] /\ sol_domain u = [a] /\ s_ref s Fpatch = Some a /\ sol_start u = 4%Z /\
    deepcopy_solution h u = (h', u') /\
    sol_states u' = [s'] /\ sol_domain u' = [a'] /\ s_ref s' Fpatch <> Some a' /\ sol_start u' = 0%Z /\
    (let moved := fun _ => Pat (mkPatch [(0, 5, 2%Z)] 1 1 5 []) in
     v_obj (values_of (replace_at a moved h') s) Fpatch = Some (moved (Pat demo_patch)) /\
     v_obj (values_of (replace_at a' moved h') s') Fpatch <> Some (moved (Pat demo_patch))).
Proof.
  exists demo_store, (mkSolution [demo_state] [3%nat] 4).
  destruct (deepcopy_solution demo_store (mkSolution [demo_state] [3%nat] 4)) as [h' u'] eqn:E.
  exists h', u', demo_state.
  vm_compute in E. injection E as <- <-. do 3 eexists.
  split; [reflexivity|]. split; [reflexivity|]. split; [reflexivity|]. split; [reflexivity|]. split; [reflexivity|].
  split; [reflexivity|]. split; [reflexivity|]. split; [discriminate|]. split; [reflexivity|].
  split; [reflexivity|]. vm_compute. discriminate.
Qed.

(** What holds: copying a solution leaves every state of the original as it is, and the states of the copy
    have the values of the originals apart from what State copies lose; they share nothing. *)
Theorem C78_solution_copies_partial (h h' : store) (u u' : solution) :
  separate h (sol_states u) -> deepcopy_solution h u = (h', u') ->
  length (sol_states u') = length (sol_states u) /\
  separate h' (sol_states u ++ sol_states u') /\
  (forall i s, nth_error (sol_states u) i = Some s -> same_values (values_of h' s) (values_of h s)) /\
  (forall i s s', nth_error (sol_states u) i = Some s -> nth_error (sol_states u') i = Some s' ->
     same_values (values_of h' s') (copied (values_of h s))).
Proof.
  intros HS HD. unfold deepcopy_solution in HD. destruct u as [ss dom start]. cbn [sol_states sol_domain] in *.
  destruct (deepcopy_states h ss) as [h1 cs] eqn:E1. destruct (deepcopy_patches h1 dom) as [h2 d] eqn:E2. injection HD as <- <-.
  cbn [sol_states].
  assert (PRE : forall dom h1 h2 d, deepcopy_patches h1 dom = (h2, d) -> exists l, h2 = h1 ++ l).
  { clear. induction dom as [|a dom IH]; intros h1 h2 d H; cbn [deepcopy_patches] in H; [injection H as <- _; exists []; symmetry; apply app_nil_r|].
    destruct (nth_error h1 a) as [o|]; [|exact (IH _ _ _ H)].
    destruct (deepcopy_patches (h1 ++ [copy_obj o]) dom) as [h3 r] eqn:E. injection H as <- _. destruct (IH _ _ _ E) as [l Hl].
    exists ([copy_obj o] ++ l). rewrite Hl, <- app_assoc. reflexivity. }
  destruct (PRE _ _ _ _ E2) as [l Hl]. subst h2.
  (* the states *)
  assert (ST : forall rest done h h1 cs, separate h (ss ++ done) ->
     (forall s, In s rest -> In s ss) -> deepcopy_states h rest = (h1, cs) ->
     length cs = length rest /\ separate h1 (ss ++ done ++ cs) /\
     (forall s, In s (ss ++ done) -> same_values (values_of h1 s) (values_of h s)) /\
     (forall i s s', nth_error rest i = Some s -> nth_error cs i = Some s' -> same_values (values_of h1 s') (copied (values_of h s)))).
  { clear. induction rest as [|s rest IH]; intros done h h1 cs HS HI HD; cbn [deepcopy_states] in HD.
    - injection HD as <- <-. split; [reflexivity|]. rewrite app_nil_r. split; [exact HS|]. split; [intros; apply same_refl|].
      intros [|i] ? ? H; discriminate H.
    - destruct (deepcopy_state h s) as [h2 s2] eqn:E2. destruct (deepcopy_states h2 rest) as [h3 r] eqn:E3. injection HD as <- <-.
      destruct (In_nth_error ss s (HI s (or_introl eq_refl))) as [i Hi].
      assert (Hi' : nth_error (ss ++ done) i = Some s) by (rewrite nth_error_app1; [exact Hi|apply nth_error_Some; congruence]).
      destruct (copy_ok _ _ _ _ _ _ HS Hi' E2) as (A & B & C). rewrite <- app_assoc in A.
      destruct (IH (done ++ [s2]) h2 h3 r A (fun x Hx => HI x (or_intror Hx)) E3) as (P1 & P2 & P3 & P4).
      split; [cbn [length]; rewrite P1; reflexivity|]. split; [rewrite <- app_assoc in P2; exact P2|].
      assert (OLD : forall x, In x (ss ++ done) -> same_values (values_of h3 x) (values_of h x)).
      { intros x Hx. apply (same_trans _ (values_of h2 x)).
        - apply P3. apply in_app_or in Hx. destruct Hx as [Hx|Hx]; apply in_or_app; [left; exact Hx|right; apply in_or_app; left; exact Hx].
        - destruct (In_nth_error _ _ Hx) as [j Hj]. exact (C _ _ Hj). }
      split; [exact OLD|]. intros [|j] x x' Hx Hx'; cbn [nth_error] in Hx, Hx'.
      + injection Hx as <-. injection Hx' as <-. apply (same_trans _ (values_of h2 s2)); [|exact B]. apply P3.
        apply in_or_app. right. apply in_or_app. right. left. reflexivity.
      + apply (same_trans _ _ _ (P4 _ _ _ Hx Hx')). apply copied_same.
        destruct (In_nth_error ss x (HI x (or_intror (nth_error_In _ _ Hx)))) as [k Hk].
        apply (C k). rewrite nth_error_app1; [exact Hk|apply nth_error_Some; congruence]. }
  assert (HS' : separate h (ss ++ [])) by (rewrite app_nil_r; exact HS).
  destruct (ST ss [] h h1 cs HS' (fun s H => H) E1) as (P1 & P2 & P3 & P4). cbn [app] in P2.
  assert (EXT : forall x, In x (ss ++ cs) -> same_values (values_of (h1 ++ l) x) (values_of h1 x)).
  { intros x Hx. destruct (In_nth_error _ _ Hx) as [j Hj]. split; [|repeat split]. intros f. cbn [values_of v_obj].
    destruct (s_ref x f) as [a|] eqn:Ea; [|reflexivity]. apply nth_error_app1. exact (proj1 P2 _ _ _ _ Hj Ea). }
  split; [exact P1|]. split; [|split].
  - destruct P2 as [Q1 Q2]. split; [|exact Q2]. intros i s f a Hi Ha. rewrite app_length. pose proof (Q1 _ _ _ _ Hi Ha). lia.
  - intros i s Hi. apply (same_trans _ (values_of h1 s)).
    + apply EXT. apply in_or_app. left. exact (nth_error_In _ _ Hi).
    + apply P3. rewrite app_nil_r. exact (nth_error_In _ _ Hi).
  - intros i s s' Hi Hi'. apply (same_trans _ (values_of h1 s')); [|exact (P4 _ _ _ Hi Hi')].
    apply EXT. apply in_or_app. right. exact (nth_error_In _ _ Hi').
Qed.
Example C78_case : separate demo_store (sol_states (mkSolution [demo_state] [3%nat] 4)).
Proof. exact C47_case. Qed.

Print Assumptions C47_copies_are_independent_partial.
Print Assumptions C47_copies_are_complete_refuted.
Print Assumptions C78_solution_copies_refuted.
Print Assumptions C78_solution_copies_partial.
