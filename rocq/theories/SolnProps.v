(** Properties of the attributes of a solution and of solutions with several patches. *)
From Verif Require Import Base SolnModel SolnSpec SolnProofs.

(** C104: assigning solution.t (mp, mF) reaches every state and changes nothing else; the solution then reads it. *)
Theorem C104_all_states k v s s' : for_all_states k -> (forall x, v = VNum x -> k <> KT -> exists n, x = inject_Z n) ->
  set k v s = Some s' ->
  Forall2 (fun a b => get_state k b = v /\ same_but k a b) (states s) (states s') /\ own s' = own s /\
  (own s k = None -> states s <> [] -> get k s' = Some v).
Proof.
  intros HK HV E.
  assert (E' : exists l, set_all k v (states s) = Some l /\ s' = mkSolution l (own s)).
  { unfold for_all_states in HK. destruct HK as [K|[K|K]]; subst k; cbn [set] in E;
      (destruct (set_all _ v (states s)) as [l|]; [|discriminate E]); injection E as <-; exists l; split; reflexivity. }
  destruct E' as (l & El & ->). pose proof (set_all_spec _ _ _ _ El) as HF. clear E El. cbn [states own].
  assert (H2 : Forall2 (fun a b => get_state k b = v /\ same_but k a b) (states s) l).
  { induction HF as [|a b la lb Hab _ IH]; constructor; [refine (set_state_get k v a b Hab _); intros x X [K|K]; apply (HV x X); subst k; discriminate|exact IH]. }
  split; [exact H2|]. split; [reflexivity|]. intros HO HN. unfold get. cbn [own states]. rewrite HO.
  destruct H2 as [|a b la lb (Hab & _) _]; [congruence|]. rewrite Hab. reflexivity.
Qed.
Print Assumptions C104_all_states.

(** Assigning an attribute of one state changes that attribute of that state and nothing else. *)
Theorem C104_one_state advance i k v s s' : (forall x, v = VNum x -> k = KMp \/ k = KMF -> exists n, x = inject_Z n) ->
  exec advance (SetOn i k v) s = Some s' ->
  own s' = own s /\ length (states s') = length (states s) /\
  (forall j, j <> i -> nth_error (states s') j = nth_error (states s) j) /\
  exists a b, nth_error (states s) i = Some a /\ nth_error (states s') i = Some b /\ get_state k b = v /\ same_but k a b.
Proof.
  intros HV E. cbn [exec] in E. destruct (nth_error (states s) i) as [a|] eqn:A; [|discriminate E].
  destruct (set_state k v a) as [b|] eqn:B; [|discriminate E].
  apply (f_equal (fun o => match o with Some u => u | None => s end)) in E. cbn beta iota in E. subst s'. cbn [own states].
  pose proof (nth_error_split _ _ A) as (l1 & l2 & L & Li). rewrite L.
  assert (F1 : firstn i (l1 ++ a :: l2) = l1) by (subst i; rewrite firstn_app, Nat.sub_diag, firstn_all, firstn_O, app_nil_r; reflexivity).
  assert (F2 : skipn (S i) (l1 ++ a :: l2) = l2).
  { subst i. replace (S (length l1)) with (length (l1 ++ [a])) by (rewrite app_length; cbn; lia).
    replace (l1 ++ a :: l2) with ((l1 ++ [a]) ++ l2) by (rewrite <- app_assoc; reflexivity).
    rewrite skipn_app, skipn_all, Nat.sub_diag. reflexivity. }
  rewrite F1, F2. split; [reflexivity|]. split; [rewrite !app_length; reflexivity|]. split.
  - intros j Hj. destruct (Nat.lt_ge_cases j (length l1)) as [H|H].
    + rewrite !nth_error_app1 by exact H. reflexivity.
    + rewrite !nth_error_app2 by exact H. destruct (j - length l1)%nat as [|m] eqn:D; [lia|reflexivity].
  - exists a, b. split; [reflexivity|]. split; [subst i; rewrite nth_error_app2, Nat.sub_diag by lia; reflexivity|].
    exact (set_state_get k v a b B HV).
Qed.
Print Assumptions C104_one_state.

(** C104: solution.q, solution.aux, ... are those of the state that the solver works on. Proved for every history in
    which only t, mp and mF are assigned through the solution; *)
Theorem C104_reads_partial advance os l s : Forall careful os -> exec_all advance os (built l) = Some s ->
  forall k, get k s = match states s with st :: _ => Some (get_state k st) | [] => None end.
Proof.
  intros HC E k. unfold get. rewrite (careful_own advance os _ _ HC E). reflexivity.
Qed.
Print Assumptions C104_reads_partial.

Definition ex_state (x : Q) : state := mkState 0 (VArr 1 [x]) VNone VNone VNone VNone.
(** An advance that adds 1 to q for each unit of time *)
Definition ex_advance (s : state) (tend : Q) : value * Q :=
  (match q s with VArr n l => VArr n (map (fun x => Qred (x + (tend - t s))) l) | v => v end, tend).

Example C104_example : exists s, exec_all ex_advance
    [SetOn 0 KQ (VArr 1 [5]); Set_ KMp (VNum 2); Evolve 3; Set_ KT (VNum 0)] (built [ex_state 1; ex_state 2]) = Some s /\
  get KQ s = Some (VArr 1 [8]) /\ get KMp s = Some (VNum 2) /\ map t (states s) = [0; 0].
Proof. eexists. split; [cbn; reflexivity|]. repeat split. Qed.

(** false after an assignment to solution.q: the solver still advances the old values, and solution.q shows neither *)
Theorem C104_assigned_q_refuted : exists s, exec_all ex_advance [Set_ KQ (VArr 1 [10]); Evolve 3] (built [ex_state 1]) = Some s /\
  get KQ s = Some (VArr 1 [10]) /\ map q (states s) = [VArr 1 [4]].
Proof. eexists. split; [cbn; reflexivity|]. split; reflexivity. Qed.
Print Assumptions C104_assigned_q_refuted.

(** In general: after an assignment of any attribute other than t, mp and mF the states are what they were, and the
    solution reads the assigned value whatever is done afterwards short of assigning it again. *)
Theorem C104_assigned_stays advance k v s s1 os s2 : ~ for_all_states k -> set k v s = Some s1 ->
  Forall (fun o => match o with Set_ k' _ => k' <> k | _ => True end) os -> exec_all advance os s1 = Some s2 ->
  states s1 = states s /\ get k s2 = Some v.
Proof.
  intros HK E HO E2.
  assert (E1 : s1 = mkSolution (states s) (fun k' => if key_eqb k' k then Some v else own s k')).
  { unfold for_all_states in HK. destruct k; cbn [set] in E; try (exfalso; apply HK; tauto); congruence. }
  split; [rewrite E1; reflexivity|]. clear E.
  assert (Hk : own s1 k = Some v) by (rewrite E1; cbn; destruct k; reflexivity). clear E1 s HK.
  assert (K : own s2 k = Some v).
  { revert s1 Hk E2. induction os as [|o os IH]; intros s1 Hk E2; cbn [exec_all] in E2; [congruence|].
    apply Forall_cons_iff in HO. destruct HO as (Ho & HO).
    destruct (exec advance o s1) as [s3|] eqn:E3; [|discriminate E2]. apply (IH HO s3); [|exact E2].
    destruct o as [k' v'|i k' v'|tend]; cbn [exec] in E3.
    - assert (C : (exists l, s3 = mkSolution l (own s1)) \/
                  s3 = mkSolution (states s1) (fun k'' => if key_eqb k'' k' then Some v' else own s1 k'')).
      { destruct k'; cbn [set] in E3;
          try (right; congruence);
          (destruct (set_all _ v' (states s1)) as [l|]; [|discriminate E3]); left; exists l; congruence. }
      destruct C as [(l & ->)| ->]; [exact Hk|]. cbn [own].
      replace (key_eqb k k') with false; [exact Hk|]. destruct k, k'; try reflexivity; congruence.
    - destruct (nth_error (states s1) i) as [st|]; [|discriminate E3].
      destruct (set_state k' v' st) as [st'|]; [|discriminate E3]. injection E3 as <-. exact Hk.
    - destruct s1 as [[|st r] o]; [discriminate E3|]. rewrite evolve_form in E3. injection E3 as <-. exact Hk. }
  unfold get. rewrite K. reflexivity.
Qed.
Print Assumptions C104_assigned_stays.

(** C105: evolving a solution advances every patch to the time it then has. Proved for one patch; *)
Theorem C105_one_patch_partial advance tend st : exists s, evolve advance tend (built [st]) = Some s /\
  map q (states s) = [fst (advance st tend)] /\ map t (states s) = [snd (advance st tend)].
Proof. eexists. split; [apply evolve_form|]. split; reflexivity. Qed.
Print Assumptions C105_one_patch_partial.
(** for several, every patch gets the new time but only the first one new values. *)
Theorem C105_other_patches advance tend st r : exists s, evolve advance tend (built (st :: r)) = Some s /\
  map q (states s) = fst (advance st tend) :: map q r /\
  map t (states s) = map (fun _ => snd (advance st tend)) (st :: r).
Proof.
  eexists. split; [apply evolve_form|]. cbn [states map t q fst snd].
  split; (apply f_equal2; [reflexivity|]); rewrite map_map; reflexivity.
Qed.
Print Assumptions C105_other_patches.
Theorem C105_all_patches_refuted : exists s, evolve ex_advance 3 (built [ex_state 1; ex_state 2]) = Some s /\
  map (fun st => (t st, q st)) (states s) = [(3, VArr 1 [4]); (3, VArr 1 [2])] /\
  fst (ex_advance (ex_state 2) 3) = VArr 1 [5].
Proof. eexists. split; [cbn; reflexivity|]. split; reflexivity. Qed.
Print Assumptions C105_all_patches_refuted.
