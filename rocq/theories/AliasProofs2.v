(** Programs that use a solver for one solution only compute what their meaning says. *)
From Verif Require Import Base AliasModel AliasSpec AliasProofs.
Local Open Scope nat_scope.

Lemma replace_self {A} (l : list A) x a : nth_error l x = Some a -> firstn x l ++ a :: skipn (S x) l = l.
Proof.
  revert x. induction l as [|b l IH]; intros [|x] H; try discriminate.
  - cbn in *. congruence.
  - cbn [firstn skipn app]. cbn in H. rewrite <- (IH x H) at 3. reflexivity.
Qed.
Lemma nth_error_some_of_lt {A} (l : list A) x : x < length l -> exists a, nth_error l x = Some a.
Proof. intro H. destruct (nth_error l x) eqn:E; [eauto|]. apply nth_error_None in E. lia. Qed.

Lemma replace_twice {A} (l : list A) a b : forall x, x < length l ->
  firstn x (firstn x l ++ a :: skipn (S x) l) ++ b :: skipn (S x) (firstn x l ++ a :: skipn (S x) l) =
  firstn x l ++ b :: skipn (S x) l.
Proof.
  induction l as [|c l IH]; intros x L; [cbn in L; lia|].
  destruct x as [|x]; [reflexivity|]. cbn [length] in L.
  change (skipn (S (S x)) (c :: l)) with (skipn (S x) l). cbn [firstn app].
  change (skipn (S (S x)) (c :: firstn x l ++ a :: skipn (S x) l)) with (skipn (S x) (firstn x l ++ a :: skipn (S x) l)).
  f_equal. apply IH. lia.
Qed.

Section Owner.
Variable owner : nat -> nat.

Definition bc_of (w : world) (s : nat) (b : nd) : Prop := exists g, nth_error (w_solvers w) s = Some (mkSolver g (Some b)).

Record holds (w : world) (m : meaning) : Prop := mkHolds {
  h_sols : length (w_sols w) = length (m_sols m);
  h_good : forall x q u, nth_error (w_sols w) x = Some q -> nth_error (m_sols m) x = Some u -> good (w_heap w) q u;
  h_solvers : map v_ghost (w_solvers w) = m_ghosts m;
  h_pos : Forall (fun g => g <> 0) (m_ghosts m);
  h_bc : forall s g b, nth_error (w_solvers w) s = Some (mkSolver g (Some b)) ->
         exists u, nth_error (m_sols m) (owner s) = Some u /\ good_bc (w_heap w) b g (u_shape u);
  h_apart : forall x y q r, nth_error (w_sols w) x = Some q -> nth_error (w_sols w) y = Some r ->
            n_buf q = n_buf r -> x = y;
  h_apart_bc : forall s s' b b', bc_of w s b -> bc_of w s' b' -> n_buf b = n_buf b' -> s = s';
  h_use : forall s x b q, bc_of w s b -> nth_error (w_sols w) x = Some q -> n_buf b = n_buf q -> x = owner s }.

Lemma holds_buf w m x q : holds w m -> nth_error (w_sols w) x = Some q -> n_buf q < length (w_heap w).
Proof.
  intros H Hx. pose proof (nth_error_lt _ _ _ Hx) as L. rewrite (h_sols _ _ H) in L.
  destruct (nth_error_some_of_lt _ _ L) as (u & Hu). destruct (h_good _ _ H _ _ _ Hx Hu) as (_ & _ & K & _). exact K.
Qed.
Lemma holds_bc_buf w m s b : holds w m -> bc_of w s b -> n_buf b < length (w_heap w).
Proof. intros H (g & Hs). destruct (h_bc _ _ H _ _ _ Hs) as (u & _ & _ & _ & K & _). exact K. Qed.

(** Solution x gets the array q' in a changed heap. *)
Lemma holds_set w m x q u h' q' vs :
  holds w m -> nth_error (w_sols w) x = Some q -> nth_error (m_sols m) x = Some u ->
  length (w_heap w) <= length h' ->
  (forall k, k < length (w_heap w) -> length (block h' k) = length (block (w_heap w) k)) ->
  (forall y r, y <> x -> nth_error (w_sols w) y = Some r -> block h' (n_buf r) = block (w_heap w) (n_buf r)) ->
  good h' q' (mkValue (u_shape u) vs) ->
  (forall y r, y <> x -> nth_error (w_sols w) y = Some r -> n_buf r <> n_buf q') ->
  (forall s b, bc_of w s b -> n_buf b = n_buf q' -> x = owner s) ->
  holds (set_sol x q' (set_heap h' w)) (set_value x (mkValue (u_shape u) vs) m).
Proof.
  intros H Hx Hu Hl Hz Hb Hg Hd Ho.
  pose proof (nth_error_lt _ _ _ Hx) as Lx. pose proof (nth_error_lt _ _ _ Hu) as Lu.
  constructor; unfold set_sol, set_value, set_heap, bc_of in *; cbn [w_heap w_sols w_solvers m_sols m_ghosts] in *.
  - rewrite !length_replaced by assumption. apply (h_sols _ _ H).
  - intros y r v. rewrite !nth_replaced by assumption. destruct (y =? x) eqn:E.
    + intros Hr Hv. injection Hr as <-. injection Hv as <-. exact Hg.
    + apply Nat.eqb_neq in E. intros Hr Hv. apply (good_frame (w_heap w)); [|exact Hl|].
      * exact (h_good _ _ H _ _ _ Hr Hv).
      * exact (Hb _ _ E Hr).
  - exact (h_solvers _ _ H).
  - exact (h_pos _ _ H).
  - intros s g b Hs. destruct (h_bc _ _ H _ _ _ Hs) as (v & Hv & B).
    assert (B' : forall sh, good_bc (w_heap w) b g sh -> good_bc h' b g sh).
    { intros sh Bsh. apply (good_bc_frame (w_heap w)); [assumption|assumption|]. apply Hz.
      destruct Bsh as (_ & _ & K & _). exact K. }
    rewrite nth_replaced by assumption. destruct (owner s =? x) eqn:E.
    + apply Nat.eqb_eq in E. rewrite E in Hv. assert (v = u) by congruence. subst v.
      eexists. split; [reflexivity|]. apply B'. exact B.
    + exists v. split; [assumption|]. apply B'. exact B.
  - intros y z r r'. rewrite !nth_replaced by assumption.
    destruct (y =? x) eqn:E, (z =? x) eqn:E'.
    + apply Nat.eqb_eq in E. apply Nat.eqb_eq in E'. congruence.
    + apply Nat.eqb_neq in E'. intros Hr Hr' He. injection Hr as <-. exfalso. exact (Hd _ _ E' Hr' (eq_sym He)).
    + apply Nat.eqb_neq in E. intros Hr Hr' He. injection Hr' as <-. exfalso. exact (Hd _ _ E Hr He).
    + intros Hr Hr' He. exact (h_apart _ _ H _ _ _ _ Hr Hr' He).
  - exact (h_apart_bc _ _ H).
  - intros s y b r Hs. rewrite nth_replaced by assumption. destruct (y =? x) eqn:E.
    + apply Nat.eqb_eq in E. subst y. intros Hr He. injection Hr as <-. exact (Ho _ _ Hs He).
    + intros Hr He. exact (h_use _ _ H _ _ _ _ Hs Hr He).
Qed.

(** The heap grows. *)
Lemma holds_grow w m l : holds w m -> holds (set_heap (w_heap w ++ l) w) m.
Proof.
  intro H. constructor; unfold set_heap, bc_of in *; cbn [w_heap w_sols w_solvers].
  - apply (h_sols _ _ H).
  - intros x q u Hx Hu. apply (good_frame (w_heap w)); [exact (h_good _ _ H _ _ _ Hx Hu)|rewrite app_length; lia|].
    apply block_app. exact (holds_buf _ _ _ _ H Hx).
  - apply (h_solvers _ _ H).
  - apply (h_pos _ _ H).
  - intros s g b Hs. destruct (h_bc _ _ H _ _ _ Hs) as (v & Hv & B). exists v. split; [assumption|].
    apply (good_bc_frame (w_heap w)); [assumption|rewrite app_length; lia|].
    rewrite block_app; [reflexivity|]. destruct B as (_ & _ & K & _). exact K.
  - apply (h_apart _ _ H).
  - apply (h_apart_bc _ _ H).
  - apply (h_use _ _ H).
Qed.

(** A new solution *)
Lemma holds_new w m sh vs : holds w m -> sh <> [] -> length vs = prod sh ->
  holds (mkWorld (fst (new_array (w_heap w) sh vs)) (w_sols w ++ [snd (new_array (w_heap w) sh vs)]) (w_solvers w))
        (mkMeaning (m_sols m ++ [mkValue sh vs]) (m_ghosts m)).
Proof.
  intros H Hs Hl. pose proof (good_new (w_heap w) sh vs Hs Hl) as N.
  destruct (new_array (w_heap w) sh vs) as [h a]. destruct N as (-> & Ha & G & _). cbn [fst snd].
  pose proof (holds_grow w m [vs] H) as H'.
  constructor; unfold bc_of; cbn [w_heap w_sols w_solvers m_sols m_ghosts].
  - rewrite !app_length, (h_sols _ _ H). reflexivity.
  - intros x q u. rewrite !nth_error_snoc, (h_sols _ _ H). destruct (x =? length (m_sols m)).
    + intros Hx Hu. injection Hx as <-. injection Hu as <-. exact G.
    + intros Hx Hu. exact (h_good _ _ H' _ _ _ Hx Hu).
  - apply (h_solvers _ _ H).
  - apply (h_pos _ _ H).
  - intros s g b Hb. destruct (h_bc _ _ H' _ _ _ Hb) as (v & Hv & B). exists v. split; [|exact B].
    rewrite nth_error_app1 by exact (nth_error_lt _ _ _ Hv). exact Hv.
  - intros x y q r. rewrite !nth_error_snoc.
    destruct (x =? length (w_sols w)) eqn:E, (y =? length (w_sols w)) eqn:E'.
    + apply Nat.eqb_eq in E. apply Nat.eqb_eq in E'. congruence.
    + intros Hx Hy He. injection Hx as <-. pose proof (holds_buf _ _ _ _ H Hy). lia.
    + intros Hx Hy He. injection Hy as <-. pose proof (holds_buf _ _ _ _ H Hx). lia.
    + intros Hx Hy He. exact (h_apart _ _ H _ _ _ _ Hx Hy He).
  - exact (h_apart_bc _ _ H).
  - intros s x b q Hb. rewrite nth_error_snoc. destruct (x =? length (w_sols w)) eqn:E.
    + intros Hx He. injection Hx as <-. pose proof (holds_bc_buf _ _ _ _ H Hb). lia.
    + intros Hx He. exact (h_use _ _ H _ _ _ _ Hb Hx He).
Qed.

Lemma pad_prod_zeros sh : length (firstn (prod sh) ([] ++ repeat 0%Q (prod sh))) = prod sh.
Proof. cbn [app]. rewrite firstn_length, repeat_length. lia. Qed.

(** setup *)
Lemma holds_setup w m s x : holds w m -> s < length (m_ghosts m) -> x = owner s -> x < length (m_sols m) ->
  exists w', setup s x w = Done w' /\ holds w' m /\ w_sols w' = w_sols w /\
    exists g b, nth_error (m_ghosts m) s = Some g /\ nth_error (w_solvers w') s = Some (mkSolver g (Some b)).
Proof.
  intros H Ls Ex Lx.
  assert (Ls' : s < length (w_solvers w)) by (rewrite <- (map_length v_ghost), (h_solvers _ _ H); exact Ls).
  destruct (nth_error_some_of_lt _ _ Ls') as (v & Hv).
  assert (Lx' : x < length (w_sols w)) by (rewrite (h_sols _ _ H); exact Lx).
  destruct (nth_error_some_of_lt _ _ Lx') as (q & Hq).
  destruct (nth_error_some_of_lt _ _ Lx) as (u & Hu).
  pose proof (h_good _ _ H _ _ _ Hq Hu) as G.
  assert (Hg : nth_error (m_ghosts m) s = Some (v_ghost v)).
  { rewrite <- (h_solvers _ _ H), nth_error_map, Hv. reflexivity. }
  unfold setup. rewrite Hv, Hq.
  replace (n_shape q) with (u_shape u) by (symmetry; destruct G as (K & _); exact K).
  unfold new_array. eexists. split; [reflexivity|].
  set (b := mkNd (length (w_heap w)) 0 (fstrides 1 (pad (v_ghost v) (u_shape u)))).
  set (l := firstn _ _).
  assert (Ll : length l = prod (pad (v_ghost v) (u_shape u))) by apply pad_prod_zeros.
  pose proof (holds_grow w m [l] H) as H'.
  assert (Old : forall s' b', bc_of (set_solver s (mkSolver (v_ghost v) (Some b)) (set_heap (w_heap w ++ [l]) w)) s' b' ->
                (s' = s /\ b' = b) \/ (s' <> s /\ bc_of w s' b')).
  { intros s' b' (g & Hs). unfold set_solver, set_heap in Hs. cbn [w_solvers] in Hs.
    rewrite nth_replaced in Hs by assumption. destruct (s' =? s) eqn:E.
    - apply Nat.eqb_eq in E. left. split; [assumption|congruence].
    - apply Nat.eqb_neq in E. right. split; [assumption|]. exists g. exact Hs. }
  split; [|split; [reflexivity|]].
  - constructor.
    + apply (h_sols _ _ H').
    + apply (h_good _ _ H').
    + unfold set_solver, set_heap. cbn [w_solvers].
      rewrite <- (h_solvers _ _ H). rewrite map_app. cbn [map v_ghost]. rewrite <- firstn_map, <- skipn_map.
      apply replace_self. rewrite nth_error_map, Hv. reflexivity.
    + apply (h_pos _ _ H).
    + unfold set_solver, set_heap. cbn [w_solvers w_heap]. intros s' g b'.
      rewrite nth_replaced by assumption. destruct (s' =? s) eqn:E.
      * apply Nat.eqb_eq in E. subst s'. intro K. injection K as <- <-. rewrite <- Ex. exists u. split; [exact Hu|].
        unfold good_bc, b. cbn [n_dims n_off n_buf]. rewrite app_length, block_last. cbn [length].
        repeat split; [lia|exact Ll].
      * intro K. exact (h_bc _ _ H' _ _ _ K).
    + apply (h_apart _ _ H').
    + intros s1 s2 b1 b2 K1 K2 He. destruct (Old _ _ K1) as [(-> & ->)|(N1 & O1)], (Old _ _ K2) as [(-> & ->)|(N2 & O2)].
      * reflexivity.
      * pose proof (holds_bc_buf _ _ _ _ H O2) as L. unfold b in He. cbn [n_buf] in He. lia.
      * pose proof (holds_bc_buf _ _ _ _ H O1) as L. unfold b in He. cbn [n_buf] in He. lia.
      * exact (h_apart_bc _ _ H _ _ _ _ O1 O2 He).
    + intros s1 y b1 r K1 Hr He. unfold set_solver, set_heap in Hr. cbn [w_sols] in Hr.
      destruct (Old _ _ K1) as [(-> & ->)|(N1 & O1)].
      * pose proof (holds_buf _ _ _ _ H Hr) as L. unfold b in He. cbn [n_buf] in He. lia.
      * exact (h_use _ _ H _ _ _ _ O1 Hr He).
  - exists (v_ghost v), b. split; [assumption|]. unfold set_solver, set_heap. cbn [w_solvers].
    rewrite nth_replaced by assumption. rewrite Nat.eqb_refl. reflexivity.
Qed.

(** A step of a set-up solver *)
Lemma holds_step w m s x g b u before hyp after ok :
  holds w m -> nth_error (w_solvers w) s = Some (mkSolver g (Some b)) -> x = owner s ->
  nth_error (m_sols m) x = Some u ->
  keeps_size (prod (u_shape u)) before -> fills_ghosts g (u_shape u) hyp -> keeps_size (prod (u_shape u)) after ->
  exists w', evolve_once s x before hyp after ok w = Done w' /\
    holds w' (set_value x (if ok then mkValue (u_shape u) (after (hyperbolic g (u_shape u) hyp (before (u_vals u))))
                           else u) m).
Proof.
  intros H Hs Ex Hu Kb Kh Ka.
  pose proof (nth_error_lt _ _ _ Hu) as Lx. rewrite <- (h_sols _ _ H) in Lx.
  destruct (nth_error_some_of_lt _ _ Lx) as (q & Hq).
  pose proof (h_good _ _ H _ _ _ Hq Hu) as G.
  pose proof (good_length _ _ _ G) as HL.
  assert (Sq : n_shape q = u_shape u) by (destruct G as (K & _); exact K).
  assert (Ss : u_shape u <> []) by (destruct G as (_ & K & _); exact K).
  assert (Rq : read (w_heap w) q = u_vals u) by (destruct G as (_ & _ & _ & _ & _ & K); exact K).
  assert (Hg : g <> 0).
  { assert (Eg : nth_error (m_ghosts m) s = Some g) by (rewrite <- (h_solvers _ _ H), nth_error_map, Hs; reflexivity).
    pose proof (h_pos _ _ H) as P. rewrite Forall_forall in P. exact (P _ (nth_error_In _ _ Eg)). }
  destruct (h_bc _ _ H _ _ _ Hs) as (u' & Hu' & B). rewrite <- Ex, Hu in Hu'. injection Hu' as <-.
  unfold evolve_once. rewrite Hs, Hq, Sq, Rq.
  pose proof (good_new (w_heap w) (u_shape u) (u_vals u) Ss HL) as N.
  destruct (new_array (w_heap w) (u_shape u) (u_vals u)) as [h backup]. destruct N as (-> & Nb & GN & _).
  pose proof (holds_grow w m [u_vals u] H) as H0. set (w0 := set_heap (w_heap w ++ [u_vals u]) w) in *.
  assert (G0 : good (w_heap w0) q u) by (exact (h_good _ _ H0 _ _ _ Hq Hu)).
  assert (B0 : good_bc (w_heap w0) b g (u_shape u)).
  { destruct (h_bc _ _ H0 _ _ _ Hs) as (u' & Hu' & B'). rewrite <- Ex, Hu in Hu'. injection Hu' as <-. exact B'. }
  unfold classic_step. change (w_solvers w0) with (w_solvers w). change (w_sols w0) with (w_sols w). rewrite Hs, Hq.
  destruct (step_heap _ _ _ _ _ _ _ _ G0 B0 Hg Kb Kh Ka) as (h2 & E2 & Rest).
  rewrite E2. cbv zeta in Rest |- *.
  match type of Rest with length ?h = _ /\ _ => set (h4 := h) in * end. destruct Rest as (L4 & Z4 & F4 & G4).
  assert (Nq : forall y r, y <> x -> nth_error (w_sols w) y = Some r -> n_buf r <> n_buf q).
  { intros y r Ny Hr He. apply Ny. exact (h_apart _ _ H _ _ _ _ Hr Hq He). }
  assert (Nbc : forall y r, y <> x -> nth_error (w_sols w) y = Some r -> n_buf r <> n_buf b).
  { intros y r Ny Hr He. apply Ny. rewrite Ex. apply (h_use _ _ H s y b r); [exists g; exact Hs|exact Hr|congruence]. }
  assert (Step4 : holds (set_sol x (inner_view g b) (set_heap h4 w0))
                    (set_value x (mkValue (u_shape u) (after (hyperbolic g (u_shape u) hyp (before (u_vals u))))) m)).
  { apply (holds_set w0 m x q u); try assumption.
    - rewrite L4. lia.
    - intros k _. apply Z4.
    - intros y r Ny Hr. apply F4; [exact (Nq _ _ Ny Hr)|exact (Nbc _ _ Ny Hr)].
    - intros y r Ny Hr. rewrite view_buf. exact (Nbc _ _ Ny Hr).
    - intros s' b' Hb' He. rewrite view_buf in He.
      assert (s' = s) by (apply (h_apart_bc _ _ H0 s' s b' b); [exact Hb'|exists g; exact Hs|exact He]). congruence. }
  destruct ok.
  - eexists. split; [reflexivity|]. exact Step4.
  - eexists. split; [reflexivity|].
    assert (Ew : set_sol x backup (set_sol x (inner_view g b) (set_heap h4 w0)) = set_sol x backup (set_heap h4 w0)).
    { unfold set_sol, set_heap. cbn [w_heap w_sols w_solvers]. change (w_sols w0) with (w_sols w).
      rewrite replace_twice by exact Lx. reflexivity. }
    rewrite Ew.
    replace (set_value x u m) with (set_value x (mkValue (u_shape u) (u_vals u)) m) by (destruct u; reflexivity).
    apply (holds_set w0 m x q u); try assumption.
    + rewrite L4. lia.
    + intros k _. apply Z4.
    + intros y r Ny Hr. apply F4; [exact (Nq _ _ Ny Hr)|exact (Nbc _ _ Ny Hr)].
    + apply (good_frame (w_heap w0)); [exact GN|rewrite L4; lia|]. rewrite Nb. apply F4.
      * pose proof (holds_buf _ _ _ _ H Hq). lia.
      * destruct B as (_ & _ & K & _). lia.
    + intros y r Ny Hr He. pose proof (holds_buf _ _ _ _ H Hr). lia.
    + intros s' b' Hb' He. pose proof (holds_bc_buf _ _ _ _ H Hb'). lia.
Qed.

Lemma holds_exec o w m m' : holds w m -> proper owner m o -> means o m = Some m' ->
  exists w', exec o w = Done w' /\ holds w' m'.
Proof.
  intros H P M. destruct o as [sh vs|x|x vs|x f|g|s x|s x before hyp after ok]; cbn [proper means exec] in *.
  - destruct P as (Hs & Hl). injection M as <-. pose proof (holds_new w m sh vs H Hs Hl) as K.
    destruct (new_array (w_heap w) sh vs) as [h a]. eexists. split; [reflexivity|exact K].
  - destruct (nth_error (m_sols m) x) as [u|] eqn:Hu; [|discriminate]. injection M as <-.
    rewrite <- (h_sols _ _ H) in P. destruct (nth_error_some_of_lt _ _ P) as (q & Hq). rewrite Hq.
    pose proof (h_good _ _ H _ _ _ Hq Hu) as G. pose proof (good_length _ _ _ G) as HL.
    destruct G as (Sq & Ss & _ & _ & _ & Rq). rewrite Sq, Rq.
    pose proof (holds_new w m (u_shape u) (u_vals u) H Ss HL) as K.
    destruct (new_array (w_heap w) (u_shape u) (u_vals u)) as [h a]. eexists. split; [reflexivity|].
    destruct u; exact K.
  - destruct P as (u & Hu & Hl). unfold update in M. rewrite Hu in M. injection M as <-.
    pose proof (nth_error_lt _ _ _ Hu) as Lx. rewrite <- (h_sols _ _ H) in Lx.
    destruct (nth_error_some_of_lt _ _ Lx) as (q & Hq). rewrite Hq.
    pose proof (h_good _ _ H _ _ _ Hq Hu) as G. destruct G as (Sq & Ss & _). rewrite Sq.
    pose proof (good_new (w_heap w) (u_shape u) vs Ss Hl) as N.
    destruct (new_array (w_heap w) (u_shape u) vs) as [h a]. destruct N as (-> & Na & GN & _).
    eexists. split; [reflexivity|]. apply (holds_set w m x q u); try assumption.
    + rewrite app_length. lia.
    + intros k L. rewrite block_app by assumption. reflexivity.
    + intros y r _ Hr. apply block_app. exact (holds_buf _ _ _ _ H Hr).
    + intros y r _ Hr He. pose proof (holds_buf _ _ _ _ H Hr). lia.
    + intros s b Hb He. pose proof (holds_bc_buf _ _ _ _ H Hb). lia.
  - destruct P as (u & Hu & Kf). unfold update in M. rewrite Hu in M. injection M as <-.
    pose proof (nth_error_lt _ _ _ Hu) as Lx. rewrite <- (h_sols _ _ H) in Lx.
    destruct (nth_error_some_of_lt _ _ Lx) as (q & Hq). rewrite Hq.
    pose proof (h_good _ _ H _ _ _ Hq Hu) as G. pose proof (good_length _ _ _ G) as HL.
    assert (Rq : read (w_heap w) q = u_vals u) by (destruct G as (_ & _ & _ & _ & _ & K); exact K).
    eexists. split; [reflexivity|]. rewrite Rq.
    replace (set_heap (write (w_heap w) q (f (u_vals u))) w)
      with (set_sol x q (set_heap (write (w_heap w) q (f (u_vals u))) w)).
    2: { unfold set_sol, set_heap. cbn [w_heap w_sols w_solvers]. rewrite replace_self by assumption. reflexivity. }
    apply (holds_set w m x q u); try assumption.
    + rewrite write_length. lia.
    + intros k _. apply write_sizes.
    + intros y r Ny Hr. apply write_other. intro He. apply Ny. exact (h_apart _ _ H _ _ _ _ Hr Hq He).
    + apply good_write; [exact G|]. apply Kf. exact HL.
    + intros y r Ny Hr He. apply Ny. exact (h_apart _ _ H _ _ _ _ Hr Hq He).
    + intros s b Hb He. exact (h_use _ _ H _ _ _ _ Hb Hq He).
  - injection M as <-. eexists. split; [reflexivity|].
    constructor; unfold bc_of; cbn [w_heap w_sols w_solvers m_sols m_ghosts].
    + apply (h_sols _ _ H).
    + apply (h_good _ _ H).
    + rewrite map_app, (h_solvers _ _ H). reflexivity.
    + apply Forall_app. split; [apply (h_pos _ _ H)|]. repeat constructor. lia.
    + intros s g' b. rewrite nth_error_snoc. destruct (s =? _); [discriminate|]. apply (h_bc _ _ H).
    + apply (h_apart _ _ H).
    + intros s s' b b' (g1 & K1) (g2 & K2). rewrite nth_error_snoc in K1, K2.
      destruct (s =? _); [discriminate|]. destruct (s' =? _); [discriminate|].
      apply (h_apart_bc _ _ H); [exists g1; exact K1|exists g2; exact K2].
    + intros s x b q (g1 & K1). rewrite nth_error_snoc in K1. destruct (s =? _); [discriminate|].
      apply (h_use _ _ H). exists g1. exact K1.
  - destruct P as (Ls & Ex & Lx). destruct (nth_error_some_of_lt _ _ Ls) as (g & Hg).
    destruct (nth_error_some_of_lt _ _ Lx) as (u & Hu). rewrite Hg, Hu in M. injection M as <-.
    destruct (holds_setup w m s x H Ls Ex Lx) as (w' & E & H' & _). exists w'. split; assumption.
  - destruct P as (u & g & Ex & Hu & Hg & Kb & Kh & Ka). rewrite Hg in M. unfold update in M. rewrite Hu in M.
    injection M as <-.
    assert (Hv : exists v, nth_error (w_solvers w) s = Some v /\ v_ghost v = g).
    { rewrite <- (h_solvers _ _ H), nth_error_map in Hg. destruct (nth_error (w_solvers w) s) as [v|]; [|discriminate].
      exists v. split; [reflexivity|]. cbn in Hg. congruence. }
    destruct Hv as ([g' [b|]] & Hv & E); cbn [v_ghost] in E; subst g'.
    + exact (holds_step w m s x g b u before hyp after ok H Hv Ex Hu Kb Kh Ka).
    + destruct (holds_setup w m s x H (nth_error_lt _ _ _ Hg) Ex (nth_error_lt _ _ _ Hu)) as (w' & E & H' & _ & g' & b & Hg' & Hb).
      assert (g' = g) by congruence. subst g'.
      destruct (holds_step w' m s x g b u before hyp after ok H' Hb Ex Hu Kb Kh Ka) as (w'' & E' & H'').
      exists w''. split; [|exact H'']. unfold evolve_once in *. rewrite Hv, E. rewrite Hb in E'. exact E'.
Qed.

Lemma holds_program os : forall w m m', holds w m -> program owner m os m' ->
  exists w', exec_all os w = Done w' /\ holds w' m'.
Proof.
  induction os as [|o os IH]; intros w m m'' H P; inversion P; subst.
  - exists w. split; [reflexivity|assumption].
  - match goal with
    | K : proper owner m o, K' : means o m = Some ?m1, K'' : program owner ?m1 os m'' |- _ =>
        destruct (holds_exec o w m m1 H K K') as (w' & E & H'); destruct (IH w' m1 m'' H' K'') as (w'' & E' & H'')
    end.
    exists w''. split; [|assumption]. cbn [exec_all]. rewrite E. exact E'.
Qed.
Lemma holds_nothing : holds empty_world nothing.
Proof.
  constructor; unfold empty_world, nothing, bc_of; cbn [w_heap w_sols w_solvers m_sols m_ghosts].
  - reflexivity.
  - intros [|x] q u; discriminate.
  - reflexivity.
  - constructor.
  - intros [|s] g b; discriminate.
  - intros [|x] y q r; discriminate.
  - intros [|s] s' b b' (g & K); discriminate.
  - intros [|s] x b q (g & K); discriminate.
Qed.

Theorem program_correct os m : program owner nothing os m ->
  exists w, exec_all os empty_world = Done w /\
    forall x, values_of x w = option_map u_vals (nth_error (m_sols m) x).
Proof.
  intro P. destruct (holds_program os _ _ _ holds_nothing P) as (w & E & H). exists w. split; [assumption|].
  intro x. unfold values_of. destruct (nth_error (w_sols w) x) as [q|] eqn:Hq.
  - pose proof (nth_error_lt _ _ _ Hq) as L. rewrite (h_sols _ _ H) in L.
    destruct (nth_error_some_of_lt _ _ L) as (u & Hu). rewrite Hu. cbn [option_map].
    destruct (h_good _ _ H _ _ _ Hq Hu) as (_ & _ & _ & _ & _ & R). congruence.
  - apply nth_error_None in Hq. rewrite (h_sols _ _ H) in Hq. apply nth_error_None in Hq. rewrite Hq. reflexivity.
Qed.
End Owner.
