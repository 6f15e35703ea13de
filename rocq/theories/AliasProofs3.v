(** Which solutions can be run again, and what a shared solver does. *)
From Verif Require Import Base AliasModel AliasSpec AliasProofs AliasProofs2.
Local Open Scope nat_scope.

(** *** Solutions of one space dimension *)
Definition line (a : nd) : Prop := exists m n, n_dims a = [(m, 1); (n, m)].
Lemma line_contiguous a : line a -> f_contiguous a = true.
Proof.
  intros (m & n & E). unfold f_contiguous. rewrite E. cbn [existsb strides_contiguous fst].
  destruct (m =? 1) eqn:Em.
  - apply Nat.eqb_eq in Em. subst m. destruct (n =? 1); cbn; apply Bool.orb_true_r.
  - rewrite Nat.mul_1_l, !Nat.eqb_refl. destruct (n =? 1); cbn; apply Bool.orb_true_r.
Qed.
Definition lines (w : world) : Prop :=
  Forall line (w_sols w) /\ Forall (fun v => match v_qbc v with Some b => line b | None => True end) (w_solvers w).

Lemma line_shape a : line a -> exists m n, n_shape a = [m; n].
Proof. intros (m & n & E). exists m, n. unfold n_shape. rewrite E. reflexivity. Qed.
Lemma line_new h m n vs : line (snd (new_array h [m; n] vs)).
Proof. exists m, n. cbn. rewrite Nat.add_0_r. reflexivity. Qed.
Lemma line_view g b : line b -> line (inner_view g b).
Proof.
  intros (m & n & E). unfold inner_view. rewrite E. eexists m, _. cbn [n_dims map inner_dim fst snd]. reflexivity.
Qed.
Lemma forall_nth {A} (P : A -> Prop) l x a : Forall P l -> nth_error l x = Some a -> P a.
Proof. intros F H. rewrite Forall_forall in F. apply F. exact (nth_error_In _ _ H). Qed.
Lemma forall_replaced {A} (P : A -> Prop) l x a : Forall P l -> P a -> Forall P (firstn x l ++ a :: skipn (S x) l).
Proof.
  intros F Pa. rewrite Forall_forall in *. intros b Hb. apply in_app_iff in Hb. destruct Hb as [Hb|[<-|Hb]].
  - apply F. rewrite <- (firstn_skipn x l). apply in_app_iff. left. assumption.
  - assumption.
  - apply F. rewrite <- (firstn_skipn (S x) l). apply in_app_iff. right. assumption.
Qed.

Lemma setup_lines s x w w' : lines w -> setup s x w = Done w' -> lines w'.
Proof.
  intros (Hs & Hv) E. unfold setup in E.
  destruct (nth_error (w_solvers w) s) as [v|] eqn:Ev; [|discriminate].
  destruct (nth_error (w_sols w) x) as [q|] eqn:Eq; [|discriminate].
  destruct (line_shape q (forall_nth _ _ _ _ Hs Eq)) as (m & n & Es). rewrite Es in E. cbn [pad map] in E.
  pose proof (line_new (w_heap w) m (n + 2 * v_ghost v) []) as L.
  destruct (new_array (w_heap w) [m; n + 2 * v_ghost v] []) as [h b]. cbn [snd] in L. injection E as <-.
  split; [exact Hs|]. unfold set_solver, set_heap. cbn [w_solvers]. apply forall_replaced; assumption.
Qed.
Lemma step_lines s x before hyp after w w' : lines w -> classic_step s x before hyp after w = Done w' -> lines w'.
Proof.
  intros (Hs & Hv) E. unfold classic_step in E.
  destruct (nth_error (w_solvers w) s) as [[g [b|]]|] eqn:Ev; try discriminate.
  destruct (nth_error (w_sols w) x) as [q|] eqn:Eq; [|discriminate].
  destruct (assign _ _ _) as [h2|]; [|discriminate]. injection E as <-.
  split; [|exact Hv]. unfold set_sol, set_heap. cbn [w_sols]. apply forall_replaced; [exact Hs|].
  apply line_view. exact (forall_nth _ _ _ _ Hv Ev).
Qed.
Lemma evolve_lines s x before hyp after ok w w' : lines w -> evolve_once s x before hyp after ok w = Done w' -> lines w'.
Proof.
  intros L E. unfold evolve_once in E.
  assert (K : exists w0, lines w0 /\
    match nth_error (w_sols w0) x with
    | Some q => let (h, backup) := new_array (w_heap w0) (n_shape q) (read (w_heap w0) q) in
        match classic_step s x before hyp after (set_heap h w0) with
        | Raised e => Raised e
        | Done w1 => Done (if ok then w1 else set_sol x backup w1)
        end
    | None => Raised NoSuchObject
    end = Done w').
  { destruct (nth_error (w_solvers w) s) as [[g [b|]]|] eqn:Ev.
    - exists w. split; [assumption|exact E].
    - destruct (setup s x w) as [w0|] eqn:E0; [|discriminate]. exists w0. split; [|exact E].
      exact (setup_lines _ _ _ _ L E0).
    - exists w. split; [assumption|exact E]. }
  clear E L w. destruct K as (w & L & E).
  destruct (nth_error (w_sols w) x) as [q|] eqn:Eq; [|discriminate].
  pose proof L as (Hs & Hv).
  destruct (line_shape q (forall_nth _ _ _ _ Hs Eq)) as (m & n & Es). rewrite Es in E.
  pose proof (line_new (w_heap w) m n (read (w_heap w) q)) as Lb.
  destruct (new_array (w_heap w) [m; n] (read (w_heap w) q)) as [h backup]. cbn [snd] in Lb.
  destruct (classic_step s x before hyp after (set_heap h w)) as [w1|] eqn:E1; [|discriminate].
  assert (L1 : lines w1) by (apply (step_lines _ _ _ _ _ _ _ L) in E1 || apply (step_lines s x before hyp after (set_heap h w)); [exact L|exact E1]).
  injection E as <-. destruct ok; [exact L1|]. destruct L1 as (H1 & H2). split; [|exact H2].
  unfold set_sol. cbn [w_sols]. apply forall_replaced; assumption.
Qed.


Lemma exec_lines o w w' : in_one_dimension o -> lines w -> exec o w = Done w' -> lines w'.
Proof.
  intros O L E. pose proof L as (Hs & Hv).
  destruct o as [sh vs|x|x vs|x f|g|s x|s x before hyp after ok]; cbn [exec in_one_dimension] in *.
  - destruct sh as [|m [|n [|? ?]]]; try discriminate.
    pose proof (line_new (w_heap w) m n vs) as Lb. destruct (new_array (w_heap w) [m; n] vs) as [h a].
    injection E as <-. split; [|exact Hv]. cbn [w_sols]. apply Forall_app. split; [assumption|]. repeat constructor. exact Lb.
  - destruct (nth_error (w_sols w) x) as [q|] eqn:Eq; [|discriminate].
    destruct (line_shape q (forall_nth _ _ _ _ Hs Eq)) as (m & n & Es). rewrite Es in E.
    pose proof (line_new (w_heap w) m n (read (w_heap w) q)) as Lb.
    destruct (new_array (w_heap w) [m; n] (read (w_heap w) q)) as [h a]. injection E as <-.
    split; [|exact Hv]. cbn [w_sols]. apply Forall_app. split; [assumption|]. repeat constructor. exact Lb.
  - destruct (nth_error (w_sols w) x) as [q|] eqn:Eq; [|discriminate].
    destruct (line_shape q (forall_nth _ _ _ _ Hs Eq)) as (m & n & Es). rewrite Es in E.
    pose proof (line_new (w_heap w) m n vs) as Lb.
    destruct (new_array (w_heap w) [m; n] vs) as [h a]. injection E as <-.
    split; [|exact Hv]. unfold set_sol, set_heap. cbn [w_sols]. apply forall_replaced; assumption.
  - destruct (nth_error (w_sols w) x) as [q|] eqn:Eq; [|discriminate]. injection E as <-. exact L.
  - injection E as <-. split; [exact Hs|]. cbn [w_solvers]. apply Forall_app. split; [assumption|]. repeat constructor.
  - exact (setup_lines _ _ _ _ L E).
  - exact (evolve_lines _ _ _ _ _ _ _ _ L E).
Qed.
Lemma exec_all_lines os : forall w w', Forall in_one_dimension os -> lines w -> exec_all os w = Done w' -> lines w'.
Proof.
  induction os as [|o os IH]; intros w w' F L E; [injection E as <-; exact L|].
  apply Forall_cons_iff in F. destruct F as (Fo & F). cbn [exec_all] in E.
  destruct (exec o w) as [w1|] eqn:E1; [|discriminate].
  exact (IH _ _ F (exec_lines _ _ _ Fo L E1) E).
Qed.

(** *** Without classic steps every array is in a block of its own *)
Definition whole (a : nd) : Prop := f_contiguous a = true.
Lemma new_whole h sh vs : whole (snd (new_array h sh vs)).
Proof.
  unfold whole, new_array, f_contiguous. cbn [snd n_dims]. apply Bool.orb_true_iff. right.
  assert (K : forall l k, strides_contiguous k (fstrides k l) = true).
  { clear. induction l as [|n l IH]; intro k; [reflexivity|]. cbn [fstrides strides_contiguous].
    destruct (n =? 1) eqn:E.
    - apply Nat.eqb_eq in E. subst. rewrite Nat.mul_1_r. apply IH.
    - rewrite Nat.eqb_refl. cbn. apply IH. }
  apply K.
Qed.
Lemma exec_whole o w w' : no_accepted_classic_step o -> Forall whole (w_sols w) -> exec o w = Done w' -> Forall whole (w_sols w').
Proof.
  intros O L E.
  destruct o as [sh vs|x|x vs|x f|g|s x|s x before hyp after ok]; cbn [exec no_accepted_classic_step] in *.
  - pose proof (new_whole (w_heap w) sh vs) as N. destruct (new_array (w_heap w) sh vs) as [h a]. injection E as <-.
    cbn [w_sols]. apply Forall_app. split; [assumption|]. repeat constructor. exact N.
  - destruct (nth_error (w_sols w) x) as [q|]; [|discriminate].
    pose proof (new_whole (w_heap w) (n_shape q) (read (w_heap w) q)) as N.
    destruct (new_array _ _ _) as [h a]. injection E as <-.
    cbn [w_sols]. apply Forall_app. split; [assumption|]. repeat constructor. exact N.
  - destruct (nth_error (w_sols w) x) as [q|]; [|discriminate].
    pose proof (new_whole (w_heap w) (n_shape q) vs) as N.
    destruct (new_array _ _ _) as [h a]. injection E as <-.
    unfold set_sol, set_heap. cbn [w_sols]. apply forall_replaced; assumption.
  - destruct (nth_error (w_sols w) x) as [q|]; [|discriminate]. injection E as <-. exact L.
  - injection E as <-. exact L.
  - unfold setup in E. destruct (nth_error (w_solvers w) s); [|discriminate].
    destruct (nth_error (w_sols w) x); [|discriminate]. destruct (new_array _ _ _). injection E as <-. exact L.
  - subst ok. unfold evolve_once in E.
    assert (K : exists w0, Forall whole (w_sols w0) /\
      match nth_error (w_sols w0) x with
      | Some q => let (h, backup) := new_array (w_heap w0) (n_shape q) (read (w_heap w0) q) in
          match classic_step s x before hyp after (set_heap h w0) with
          | Raised e => Raised e
          | Done w1 => Done (set_sol x backup w1)
          end
      | None => Raised NoSuchObject
      end = Done w').
    { destruct (nth_error (w_solvers w) s) as [[g [b|]]|] eqn:Ev.
      - exists w. split; [assumption|exact E].
      - destruct (setup s x w) as [w0|] eqn:E0; [|discriminate]. exists w0. split; [|exact E].
        unfold setup in E0. destruct (nth_error (w_solvers w) s); [|discriminate].
        destruct (nth_error (w_sols w) x); [|discriminate]. destruct (new_array _ _ _). injection E0 as <-. exact L.
      - exists w. split; [assumption|exact E]. }
    clear E L w. destruct K as (w & L & E).
    destruct (nth_error (w_sols w) x) as [q|] eqn:Eq; [|discriminate].
    pose proof (new_whole (w_heap w) (n_shape q) (read (w_heap w) q)) as N.
    destruct (new_array _ _ _) as [h backup]. cbn [snd] in N.
    destruct (classic_step _ _ _ _ _ _) as [w1|] eqn:E1; [|discriminate]. injection E as <-.
    unfold classic_step in E1. change (w_solvers (set_heap h w)) with (w_solvers w) in E1.
    change (w_sols (set_heap h w)) with (w_sols w) in E1. rewrite Eq in E1.
    destruct (nth_error (w_solvers w) s) as [[g [b|]]|]; try discriminate.
    destruct (assign _ _ _); [|discriminate]. injection E1 as <-.
    unfold set_sol, set_heap. cbn [w_sols]. rewrite replace_twice by exact (nth_error_lt _ _ _ Eq).
    apply forall_replaced; assumption.
Qed.
Lemma exec_all_whole os : forall w w', Forall no_accepted_classic_step os -> Forall whole (w_sols w) ->
  exec_all os w = Done w' -> Forall whole (w_sols w').
Proof.
  induction os as [|o os IH]; intros w w' F L E; [injection E as <-; exact L|].
  apply Forall_cons_iff in F. destruct F as (Fo & F). cbn [exec_all] in E.
  destruct (exec o w) as [w1|] eqn:E1; [|discriminate].
  exact (IH _ _ F (exec_whole _ _ _ Fo L E1) E).
Qed.
Lemma can_run_whole x w q : Forall whole (w_sols w) -> nth_error (w_sols w) x = Some q -> can_run x w = Some true.
Proof. intros F H. unfold can_run. rewrite H. cbn. f_equal. exact (forall_nth _ _ _ _ F H). Qed.

(** *** After an accepted step *)
Lemma inner_dim_pad g n s : 0 < g -> inner_dim g (n + 2 * g, s) = (n, s).
Proof.
  intro H. unfold inner_dim. cbn [fst snd]. replace (g =? 0) with false by (symmetry; apply Nat.eqb_neq; lia).
  f_equal. lia.
Qed.
Lemma view_contiguous_from g ns : 0 < g -> Forall (fun n => 0 < n) ns -> forall k K, 0 < k -> k < K ->
  strides_contiguous k (map (inner_dim g) (fstrides K (map (fun n => n + 2 * g) ns))) =
  forallb (fun n => n =? 1) ns.
Proof.
  intros Hg. induction ns as [|n ns IH]; intros F k K H0 HK; [reflexivity|].
  apply Forall_cons_iff in F. destruct F as (Fn & F).
  cbn [map fstrides forallb]. rewrite inner_dim_pad by assumption. cbn [strides_contiguous].
  destruct (n =? 1) eqn:E.
  - cbn. apply IH; [assumption|assumption|nia].
  - cbn. replace (K =? k) with false by (symmetry; apply Nat.eqb_neq; lia). reflexivity.
Qed.
Lemma view_contiguous g k m n ns : 0 < g -> 0 < m -> 0 < n -> Forall (fun n => 0 < n) ns ->
  f_contiguous (inner_view g (mkNd k 0 (fstrides 1 (pad g (m :: n :: ns))))) = forallb (fun n => n =? 1) ns.
Proof.
  intros Hg Hm Hn F. unfold f_contiguous.
  cbn [pad map fstrides inner_view n_dims]. rewrite inner_dim_pad by assumption.
  match goal with |- ?a || ?b = _ => replace a with false end.
  - cbn [orb]. cbn [strides_contiguous].
    rewrite !Nat.mul_1_l.
    assert (E : strides_contiguous (m * n) (map (inner_dim g) (fstrides (m * (n + 2 * g)) (map (fun n => n + 2 * g) ns)))
                = forallb (fun n => n =? 1) ns) by (apply view_contiguous_from; try assumption; nia).
    assert (E' : strides_contiguous m (map (inner_dim g) (fstrides (m * (n + 2 * g)) (map (fun n => n + 2 * g) ns)))
                = forallb (fun n => n =? 1) ns) by (apply view_contiguous_from; try assumption; nia).
    destruct (m =? 1) eqn:Em.
    + apply Nat.eqb_eq in Em. subst m. change (1 =? 1) with true. cbn iota. rewrite !Nat.mul_1_l in *. cbn [andb].
      destruct (n =? 1); assumption.
    + rewrite !Nat.eqb_refl. cbn [andb]. destruct (n =? 1); assumption.
  - symmetry. cbn [existsb fst].
    replace (m =? 0) with false by (symmetry; apply Nat.eqb_neq; lia).
    replace (n =? 0) with false by (symmetry; apply Nat.eqb_neq; lia). cbn [orb].
    generalize (1 * m * (n + 2 * g)) as K. induction ns as [|n' ns IH]; intro K; [reflexivity|].
    apply Forall_cons_iff in F. destruct F as (Fn & F).
    cbn [map fstrides existsb]. rewrite inner_dim_pad by assumption. cbn [fst].
    replace (n' =? 0) with false by (symmetry; apply Nat.eqb_neq; lia). cbn [orb]. apply IH. assumption.
Qed.

Lemma classic_step_sol s x before hyp after w w' :
  classic_step s x before hyp after w = Done w' ->
  exists g b, nth_error (w_solvers w) s = Some (mkSolver g (Some b)) /\ w_solvers w' = w_solvers w /\
    x < length (w_sols w) /\ w_sols w' = firstn x (w_sols w) ++ inner_view g b :: skipn (S x) (w_sols w).
Proof.
  intro E. unfold classic_step in E.
  destruct (nth_error (w_solvers w) s) as [[g [b|]]|] eqn:Ev; try discriminate.
  destruct (nth_error (w_sols w) x) as [q|] eqn:Eq; [|discriminate].
  destruct (assign _ _ _) as [h2|]; [|discriminate]. injection E as <-.
  exists g, b. repeat split. exact (nth_error_lt _ _ _ Eq).
Qed.
Lemma evolve_sol s x before hyp after w w' :
  evolve_once s x before hyp after true w = Done w' ->
  exists g b, nth_error (w_solvers w') s = Some (mkSolver g (Some b)) /\
    (forall b0, nth_error (w_solvers w) s = Some (mkSolver g (Some b0)) -> b0 = b) /\
    nth_error (w_sols w') x = Some (inner_view g b) /\
    (forall y, y <> x -> nth_error (w_sols w') y = nth_error (w_sols w) y).
Proof.
  intro E. unfold evolve_once in E.
  destruct (nth_error (w_solvers w) s) as [[g0 [b0|]]|] eqn:Ev.
  - destruct (nth_error (w_sols w) x) as [q|] eqn:Eq; [|discriminate].
    destruct (new_array _ _ _) as [h backup]. destruct (classic_step _ _ _ _ _ _) as [w1|] eqn:E1; [|discriminate].
    injection E as <-. destruct (classic_step_sol _ _ _ _ _ _ _ E1) as (g & b & Hs & Ew & Lx & El).
    change (w_solvers (set_heap h w)) with (w_solvers w) in *. change (w_sols (set_heap h w)) with (w_sols w) in *.
    exists g, b. rewrite Ew, El. split; [assumption|]. split; [intros; congruence|].
    split; [rewrite nth_replaced, Nat.eqb_refl by assumption; reflexivity|].
    intros y Ny. rewrite nth_replaced by assumption. replace (y =? x) with false; [reflexivity|].
    symmetry. apply Nat.eqb_neq. assumption.
  - destruct (setup s x w) as [w0|] eqn:E0; [|discriminate].
    assert (Es : w_sols w0 = w_sols w).
    { unfold setup in E0. destruct (nth_error (w_solvers w) s); [|discriminate].
      destruct (nth_error (w_sols w) x); [|discriminate]. destruct (new_array _ _ _). injection E0 as <-. reflexivity. }
    rewrite Es in E.
    destruct (nth_error (w_sols w) x) as [q|] eqn:Eq; [|discriminate].
    destruct (new_array _ _ _) as [h backup]. destruct (classic_step _ _ _ _ _ _) as [w1|] eqn:E1; [|discriminate].
    injection E as <-. destruct (classic_step_sol _ _ _ _ _ _ _ E1) as (g & b & Hs & Ew & Lx & El).
    change (w_solvers (set_heap h w0)) with (w_solvers w0) in *. change (w_sols (set_heap h w0)) with (w_sols w0) in *.
    rewrite Es in *.
    exists g, b. rewrite Ew, El. split; [assumption|]. split; [intros; congruence|].
    split; [rewrite nth_replaced, Nat.eqb_refl by assumption; reflexivity|].
    intros y Ny. rewrite nth_replaced by assumption. replace (y =? x) with false; [reflexivity|].
    symmetry. apply Nat.eqb_neq. assumption.
  - destruct (nth_error (w_sols w) x) as [q|] eqn:Eq; [|discriminate].
    destruct (new_array _ _ _) as [h backup]. unfold classic_step in E.
    change (w_solvers (set_heap h w)) with (w_solvers w) in *. rewrite Ev in E. discriminate.
Qed.

Lemma exec_all_app os os' w : exec_all (os ++ os') w =
  match exec_all os w with Done w' => exec_all os' w' | Raised e => Raised e end.
Proof.
  revert w. induction os as [|o os IH]; intro w; [reflexivity|]. cbn [app exec_all].
  destruct (exec o w); [apply IH|reflexivity].
Qed.
Lemma program_app owner os os' : forall m m', program owner m (os ++ os') m' ->
  exists m1, program owner m os m1 /\ program owner m1 os' m'.
Proof.
  induction os as [|o os IH]; intros m m' P; [exists m; split; [constructor|exact P]|].
  cbn [app] in P. inversion P; subst.
  match goal with K : program owner _ (os ++ os') m' |- _ => destruct (IH _ _ K) as (m2 & P1 & P2) end.
  exists m2. split; [econstructor; eassumption|assumption].
Qed.

Theorem after_step owner os s x before hyp after m u c n ns :
  program owner nothing (os ++ [Step s x before hyp after true]) m ->
  nth_error (m_sols m) x = Some u -> u_shape u = c :: n :: ns -> Forall (fun k => 0 < k) (u_shape u) ->
  exists w, exec_all (os ++ [Step s x before hyp after true]) empty_world = Done w /\
    can_run x w = Some (forallb (fun k => k =? 1) ns).
Proof.
  intros P Hu Es Fs. destruct (holds_program owner _ _ _ _ (holds_nothing owner) P) as (w & E & H).
  exists w. split; [exact E|].
  rewrite exec_all_app in E. destruct (exec_all os empty_world) as [w0|]; [|discriminate].
  cbn [exec_all exec] in E. destruct (evolve_once _ _ _ _ _ _ _) as [w1|] eqn:E1; [|discriminate]. injection E as ->.
  destruct (evolve_sol _ _ _ _ _ _ _ E1) as (g & b & Hs & _ & Hx & _).
  unfold can_run. rewrite Hx. cbn [option_map]. f_equal.
  destruct (h_bc _ _ _ H _ _ _ Hs) as (u' & Hu' & B).
  assert (Ex : x = owner s).
  { apply (h_use owner w m H s x b (inner_view g b)); [exists g; exact Hs|exact Hx|rewrite view_buf; reflexivity]. }
  rewrite <- Ex, Hu in Hu'. injection Hu' as <-.
  assert (Hg : 0 < g).
  { assert (Eg : nth_error (m_ghosts m) s = Some g) by (rewrite <- (h_solvers _ _ _ H), nth_error_map, Hs; reflexivity).
    pose proof (h_pos _ _ _ H) as Pg. rewrite Forall_forall in Pg. pose proof (Pg _ (nth_error_In _ _ Eg)). lia. }
  rewrite (bc_shape _ _ _ _ B). rewrite Es in *. apply Forall_cons_iff in Fs. destruct Fs as (F1 & Fs).
  apply Forall_cons_iff in Fs. destruct Fs as (F2 & Fs). apply view_contiguous; assumption.
Qed.

(** Two solutions that one solver has advanced are the same array. *)
Theorem shared_solver s x y b1 h1 a1 b2 h2 a2 w w1 w2 : x <> y ->
  evolve_once s x b1 h1 a1 true w = Done w1 -> evolve_once s y b2 h2 a2 true w1 = Done w2 ->
  values_of x w2 = values_of y w2 /\ values_of x w2 <> None.
Proof.
  intros N E1 E2.
  destruct (evolve_sol _ _ _ _ _ _ _ E1) as (g & b & Hs & _ & Hx & _).
  destruct (evolve_sol _ _ _ _ _ _ _ E2) as (g' & b' & Hs' & Same & Hy & Other).
  assert (K : exists w0, w_solvers w0 = w_solvers w1 /\ classic_step s y b2 h2 a2 w0 = Done w2).
  { unfold evolve_once in E2. rewrite Hs in E2. destruct (nth_error (w_sols w1) y) as [q|]; [|discriminate].
    destruct (new_array _ _ _) as [h backup]. destruct (classic_step _ _ _ _ _ _) as [w3|] eqn:E3; [|discriminate].
    injection E2 as <-. eexists. split; [|exact E3]. reflexivity. }
  destruct K as (w0 & Ew0 & K). destruct (classic_step_sol _ _ _ _ _ _ _ K) as (g2 & b3 & Hs3 & Ew & _).
  rewrite Ew, Ew0, Hs in Hs'. injection Hs' as <- <-.
  unfold values_of. rewrite Hy, (Other x N), Hx. split; [reflexivity|discriminate].
Qed.

(** Solutions that an operation does not name *)
Lemma means_others o m m' x : means o m = Some m' -> x < length (m_sols m) -> changes o <> Some x ->
  nth_error (m_sols m') x = nth_error (m_sols m) x.
Proof.
  intros M L N.
  assert (U : forall y f, y <> x -> update y f m = Some m' -> nth_error (m_sols m') x = nth_error (m_sols m) x).
  { intros y f Ny E. unfold update in E. destruct (nth_error (m_sols m) y) as [u|] eqn:Ey; [|discriminate].
    injection E as <-. unfold set_value. cbn [m_sols]. rewrite nth_replaced by exact (nth_error_lt _ _ _ Ey).
    replace (x =? y) with false; [reflexivity|]. symmetry. apply Nat.eqb_neq. congruence. }
  destruct o as [sh vs|y|y vs|y f|g|s y|s y before hyp after ok]; cbn [means changes] in *.
  - injection M as <-. cbn [m_sols]. apply nth_error_app1. assumption.
  - destruct (nth_error (m_sols m) y); [|discriminate]. injection M as <-. cbn [m_sols]. apply nth_error_app1. assumption.
  - apply (U y _) in M; [exact M|congruence].
  - apply (U y _) in M; [exact M|congruence].
  - injection M as <-. reflexivity.
  - destruct (nth_error (m_ghosts m) s); [|discriminate]. destruct (nth_error (m_sols m) y); [|discriminate].
    injection M as <-. reflexivity.
  - destruct (nth_error (m_ghosts m) s); [|discriminate]. apply (U y _) in M; [exact M|congruence].
Qed.
Theorem bystanders owner os o m x : program owner nothing (os ++ [o]) m -> changes o <> Some x ->
  exists w w', exec_all os empty_world = Done w /\ exec o w = Done w' /\
    (x < length (w_sols w) -> values_of x w' = values_of x w).
Proof.
  intros P N. destruct (program_app _ _ _ _ _ P) as (m1 & P1 & P2).
  destruct (program_correct owner os m1 P1) as (w & E & V).
  destruct (program_correct owner _ _ P) as (w' & E' & V').
  rewrite exec_all_app, E in E'. cbn [exec_all] in E'. destruct (exec o w) as [w2|] eqn:Eo; [|discriminate].
  injection E' as ->. exists w, w'. split; [exact E|]. split; [exact Eo|]. intro L.
  rewrite V, V'. f_equal. inversion P2 as [|m0 o0 m2 os0 m3 Pr M P3]; subst. inversion P3; subst.
  apply (means_others o m1 m x); [exact M| |exact N].
  pose proof (V x) as Vx. unfold values_of in Vx. destruct (nth_error_some_of_lt _ _ L) as (q & Hq).
  rewrite Hq in Vx. cbn [option_map] in Vx. destruct (nth_error (m_sols m1) x) eqn:Ex; [|discriminate].
  exact (nth_error_lt _ _ _ Ex).
Qed.
