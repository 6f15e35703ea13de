(** C159 (constructing a Solution), C160 (every patch has its state), C161 (a Domain from its corners), C162
    (coordinate arrays with ghost cells and of one cell). *)
From Coq Require Import Ascii String.
From Verif Require Import Base FormatModel GeometryModel GeometrySpec GeometryProps BuildModel BuildSpec BuildProofs.
Open Scope Q_scope.

(** *** C159 *)
(** Every documented pair of arguments whose geometry is a Domain, a list of patches or a list of dimensions
    gives a Solution with exactly these states and this domain, whose base state is the first of them. *)
Theorem C159_lists_partial : forall a g p ps ss,
  documented_geom g (p :: ps) -> documented_states p a ss -> bare g = false ->
  new_solution a g = inl (mkSol (StateList ss) (p :: ps)) /\
  exists s0 r, ss = s0 :: r /\ base_state (mkSol (StateList ss) (p :: ps)) = inl s0.
Proof.
  intros a g p ps ss G S0 B. split.
  - unfold new_solution. rewrite (solution_domain_ok g _ G B). cbn [bind]. rewrite (solution_states_ok a p ps ss S0). reflexivity.
  - destruct ss as [|s0 r]; [inversion S0; subst; congruence|]. exists s0, r. split; reflexivity.
Qed.
(** A Patch or a Dimension that is not in a list, as the documentation also allows, is refused whatever the
    first argument is. *)
Theorem C159_bare_raises : forall a g, bare g = true -> new_solution a g = inr TypeErr.
Proof. intros a [ps|l|i] B; try discriminate. reflexivity. Qed.
(** A pair of numbers of components and auxiliary fields is accepted, but the Solution cannot be used. *)
Theorem C159_pair_unusable : forall n k r p ps, (0 <= n)%Z -> (0 <= k)%Z ->
  exists sol, new_solution (SSeq (ENum n :: ENum k :: r)) (GDomain (p :: ps)) = inl sol /\ base_state sol = inr TypeErr.
Proof.
  intros n k r p ps Hn Hk. unfold new_solution. cbn [solution_domain bind solution_states new_state].
  replace (n <? 0)%Z with false by (symmetry; apply Z.ltb_ge; exact Hn).
  replace (k <? 0)%Z with false by (symmetry; apply Z.ltb_ge; exact Hk). cbn [orb bind]. eexists. split; reflexivity.
Qed.

Definition xdim : ndim := mkND (lit "x") (mkDimension 0 1 10 None None).
Definition ydim : ndim := mkND (lit "y") (mkDimension (-1) 1 25 None None).
Definition right_half : ndim := mkND (lit "x") (mkDimension 1 2 20 None None).
Example C159_case : documented_geom (GSeq [IDim xdim; IDim ydim]) [[xdim; ydim]] /\
  documented_states [xdim; ydim] (SNum 3) [mkSt [xdim; ydim] 3 0] /\ bare (GSeq [IDim xdim; IDim ydim]) = false /\
  new_solution (SNum 3) (GSeq [IDim xdim; IDim ydim]) = inl (mkSol (StateList [mkSt [xdim; ydim] 3 0]) [[xdim; ydim]]).
Proof.
  split; [|split; [constructor; lia|split; reflexivity]]. apply (DDimensions [xdim; ydim]).
  split; [repeat constructor; cbn [In map nd_name xdim ydim]; intuition discriminate|cbn [length]; lia].
Qed.
(** The documented call Solution(num_eqn, patch) raises. *)
Theorem C159_documented_refuted : exists a g p ss,
  documented_geom g [p] /\ documented_states p a ss /\ new_solution a g = inr TypeErr.
Proof. exists (SNum 3), (GOne (IPatch [xdim; ydim])), [xdim; ydim], [mkSt [xdim; ydim] 3 0]. repeat constructor; lia. Qed.

(** *** C160 *)
(** With a number of components every patch has its state if the domain has one patch; with given states, if
    these are on the patches of the domain, in order. *)
Theorem C160_covered_partial :
  (forall g p n, documented_geom g [p] -> bare g = false -> (0 <= n)%Z ->
     exists sol, new_solution (SNum n) g = inl sol /\ covered sol) /\
  (forall g p ps ss, documented_geom g (p :: ps) -> bare g = false -> map st_patch ss = p :: ps ->
     exists sol, new_solution (SSeq (map EState ss)) g = inl sol /\ covered sol /\ so_states sol = StateList ss).
Proof.
  split.
  - intros g p n G B Hn. destruct (C159_lists_partial (SNum n) g p [] _ G (DNum p n Hn) B) as (E & _).
    eexists. split; [exact E|]. eexists. split; [reflexivity|reflexivity].
  - intros g p ps ss G B M. assert (N : ss <> []) by (intros ->; discriminate).
    destruct (C159_lists_partial (SSeq (map EState ss)) g p ps ss G (DStates p ss N) B) as (E & _).
    eexists. split; [exact E|]. split; [|reflexivity]. eexists. split; [reflexivity|exact M].
Qed.
(** With a number of components and a domain of several patches, only the first patch gets a state: none of
    the others can be read or advanced. *)
Theorem C160_one_state : forall n p q r, (0 <= n)%Z ->
  exists sol, new_solution (SNum n) (GDomain (p :: q :: r)) = inl sol /\
    so_domain sol = p :: q :: r /\ so_states sol = StateList [mkSt p n 0] /\ ~ covered sol.
Proof.
  intros n p q r Hn. assert (G : documented_geom (GDomain (p :: q :: r)) (p :: q :: r)) by (constructor; discriminate).
  destruct (C159_lists_partial (SNum n) (GDomain (p :: q :: r)) p (q :: r) _ G (DNum p n Hn) eq_refl) as (E & _).
  eexists. split; [exact E|]. split; [reflexivity|]. split; [reflexivity|]. intros (l & E1 & E2).
  cbn [so_states so_domain] in *. inversion E1; subst. discriminate.
Qed.
Example C160_case : documented_geom (GSeq [IPatch [xdim]; IPatch [right_half]]) [[xdim]; [right_half]] /\
  map st_patch [mkSt [xdim] 2 0; mkSt [right_half] 2 0] = [[xdim]; [right_half]].
Proof. split; [apply (DPatches [[xdim]; [right_half]]); discriminate|reflexivity]. Qed.
(** A state on another patch than that of the domain is accepted. *)
Theorem C160_any_state_refuted : exists a g p ss sol,
  documented_geom g [p] /\ documented_states p a ss /\ bare g = false /\ new_solution a g = inl sol /\ ~ covered sol.
Proof.
  exists (SState (mkSt [right_half] 1 0)), (GDomain [[xdim]]), [xdim], [mkSt [right_half] 1 0], (mkSol (StateList [mkSt [right_half] 1 0]) [[xdim]]).
  split; [constructor; discriminate|]. split; [constructor|]. split; [reflexivity|]. split; [reflexivity|].
  intros (l & E1 & E2). cbn [so_states so_domain] in *. inversion E1; subst. discriminate.
Qed.

(** *** C161 *)
(** Domain(lower, upper, n) with three sequences of the same length, at most three: one patch, which is the
    box, with valid dimensions; or an error if the box makes no sense. *)
Theorem C161_box_partial : forall lower upper n,
  length lower = length n -> length upper = length n -> (length n <= 3)%nat ->
  (makes_sense lower upper n -> exists p, domain3 lower upper n = inl [p] /\ box lower upper n p /\
     Forall (fun d => valid (nd_dim d) /\ coherent (nd_dim d)) p) /\
  (~ makes_sense lower upper n -> domain3 lower upper n = inr AssertFails).
Proof.
  intros lower upper n L1 L2 L3.
  assert (N : (length n <= length (firstn (length n + 1) [lit "x"; lit "y"; lit "z"]))%nat).
  { rewrite firstn_length. cbn [length]. lia. }
  assert (FF : firstn (length n) (firstn (length n + 1) [lit "x"; lit "y"; lit "z"]) = firstn (length n) [lit "x"; lit "y"; lit "z"]).
  { rewrite firstn_firstn. f_equal. lia. }
  split.
  - intros (_ & _ & _ & P & F). destruct (zip_ok lower upper n _ L1 L2 N P F) as (ds & E & H1 & H2 & H3 & H4 & H5).
    rewrite FF in H4. unfold domain3. rewrite E. cbn [bind].
    assert (A : new_patch ds = inl ds).
    { unfold new_patch. rewrite add_dims_ok; [|cbn [app]; rewrite H4; apply xyz_nodup, L3]. cbn [app bind].
      replace (length ds <=? 3)%nat with true; [reflexivity|]. symmetry. apply Nat.leb_le.
      rewrite <- (map_length (fun d => x_n (nd_dim d))), H3. exact L3. }
    rewrite A. cbn [bind]. exists ds. split; [reflexivity|]. split; [repeat split; assumption|exact H5].
  - intros H. unfold domain3. rewrite zip_bad; [reflexivity|assumption..|]. intros (P & F). apply H. repeat split; assumption.
Qed.
Example C161_case : makes_sense [0; -1] [1; 1 # 2] [10; 25]%Z /\
  domain3 [0; -1] [1; 1 # 2] [10; 25]%Z
  = inl [[mkND (lit "x") (mkDimension 0 1 10 None None); mkND (lit "y") (mkDimension (-1) (1 # 2) 25 None None)]].
Proof. split; [|reflexivity]. repeat split; try (cbn [length]; lia); repeat constructor. Qed.
(** Whatever is too long is dropped without an error: entries of the longer sequences, and everything from
    the fourth dimension on. *)
Theorem C161_too_long : forall lower upper n lower' upper' n',
  makes_sense lower upper n ->
  (lower' = [] \/ upper' = [] \/ n' = [] \/ length n = 3%nat) ->
  exists p, domain3 (lower ++ lower') (upper ++ upper') (n ++ n') = inl [p] /\ box lower upper n p.
Proof.
  intros lower upper n lower' upper' n' M C. destruct M as (L1 & L2 & L3 & P & F).
  destruct (proj1 (C161_box_partial lower upper n L1 L2 L3)) as (p & E & B & _); [repeat split; assumption|].
  exists p. split; [|exact B]. rewrite <- E. unfold domain3. f_equal.
  assert (K : forall names extra lower upper n, length lower = length n -> length upper = length n -> (length n <= length names)%nat ->
    (lower' = [] \/ upper' = [] \/ n' = [] \/ (length n = length names /\ extra = [])) ->
    zip_dims (lower ++ lower') (upper ++ upper') (n ++ n') (names ++ extra) = zip_dims lower upper n names).
  { clear. induction names as [|name names IH]; intros extra [|lo lower] [|up upper] [|k n] L1 L2 L3 C;
      try discriminate; cbn [app length] in *; try lia.
    - destruct C as [-> |[-> |[-> |(_ & ->)]]]; [reflexivity|destruct lower'; reflexivity|destruct lower', upper'; reflexivity|].
      destruct lower', upper', n'; reflexivity.
    - destruct C as [-> |[-> |[-> |(C & ->)]]]; [reflexivity|destruct lower'; reflexivity|destruct lower', upper'; reflexivity|lia].
    - cbn [zip_dims]. destruct (new_dim lo up k); [|reflexivity]. rewrite (IH extra lower upper n); [reflexivity|lia..|].
      destruct C as [C|[C|[C|(C & D)]]]; [tauto|tauto|tauto|]. right; right; right. split; [lia|exact D]. }
  assert (X : exists extra, firstn (length (n ++ n') + 1) [lit "x"; lit "y"; lit "z"]
     = firstn (length n + 1) [lit "x"; lit "y"; lit "z"] ++ extra /\ (length n = 3%nat -> extra = [])).
  { exists (skipn (length n + 1) (firstn (length (n ++ n') + 1) [lit "x"; lit "y"; lit "z"])). split.
    - rewrite <- (firstn_skipn (length n + 1) (firstn (length (n ++ n') + 1) _)) at 1. f_equal.
      rewrite firstn_firstn. f_equal. rewrite app_length. lia.
    - intros H3. apply skipn_all2. rewrite firstn_length. cbn [length]. lia. }
  destruct X as (extra & -> & X). apply K; [exact L1|exact L2|rewrite firstn_length; cbn [length]; lia|].
  destruct C as [C|[C|[C|C]]]; [tauto|tauto|tauto|]. right; right; right. split; [|apply X, C].
  rewrite C. reflexivity.
Qed.
Theorem C161_lost_dimension_refuted : exists lower upper n p,
  length n = 2%nat /\ Forall (fun k => (0 < k)%Z) n /\ domain3 lower upper n = inl [p] /\ length p = 1%nat.
Proof.
  exists [0], [1; 1], [10; 25]%Z, [mkND (lit "x") (mkDimension 0 1 10 None None)].
  repeat split; try reflexivity. repeat constructor.
Qed.

(** *** C162 *)
(** The coordinate arrays of a grid with ghost cells: the arrays have num_cells + 2 ng entries (one more for
    nodes) in every dimension, and entry ix of array i is the centre (edge) number ix_i - ng of dimension i.
    The physical arrays are the mapping of these. *)
Theorem C162_with_ghost : forall ds ng, (0 <= ng)%Z -> Forall (fun d => valid d /\ coherent d) ds ->
  exists cs ns,
    c_centers_with_ghost ng ds = inl cs /\ coordinates ng middle ds (map (fun d => x_n d + 2 * ng)%Z ds) cs /\
    c_nodes_with_ghost ng ds = inl ns /\ coordinates ng edge ds (map (fun d => x_n d + 2 * ng + 1)%Z ds) ns /\
    (forall P (mapc2p : list ndarray -> P), p_centers_with_ghost mapc2p ng ds = inl (mapc2p cs) /\
                                            p_nodes_with_ghost mapc2p ng ds = inl (mapc2p ns)).
Proof.
  intros ds ng Hng V. rewrite Forall_forall in V.
  destruct (mesh_ok ng middle ds (fun d => fst (centers_with_ghost ng d)) (fun d => x_n d + 2 * ng)%Z) as (cs & E1 & C1).
  { intros d Hd. destruct (V d Hd) as (V1 & V2). apply (C36_coordinates d ng V1 V2 Hng). }
  destruct (mesh_ok ng edge ds (fun d => fst (nodes_with_ghost ng d)) (fun d => x_n d + 2 * ng + 1)%Z) as (ns & E2 & C2).
  { intros d Hd. destruct (V d Hd) as (V1 & V2). pose proof (C36_coordinates d ng V1 V2 Hng) as (_ & _ & K & _).
    replace (x_n d + 2 * ng + 1)%Z with (x_n d + 1 + 2 * ng)%Z by lia. exact K. }
  exists cs, ns. split; [exact E1|]. split; [exact C1|]. split; [exact E2|]. split; [exact C2|].
  intros P m. unfold p_centers_with_ghost, p_nodes_with_ghost, c_centers_with_ghost, c_nodes_with_ghost. rewrite E1, E2. split; reflexivity.
Qed.
(** c_center(ind) is the list of the centres of cell ind in the numpy versions that take a list of indices
    for a tuple (before 1.23). *)
Theorem C162_center_partial : forall ds ind, Forall (fun d => valid d /\ coherent d) ds -> index_of (map x_n ds) ind ->
  exists a, c_center true ds ind = inl a /\ shape a = Z.of_nat (length ds) :: [] /\
    forall i d, nth_error ds i = Some d -> at_ a [Z.of_nat i] == middle d (nth i ind 0%Z).
Proof.
  intros ds ind V X. rewrite Forall_forall in V.
  destruct (mesh_ok 0 middle ds (fun d => fst (read_centers d)) x_n) as (cs & E & L & C).
  { intros d Hd. destruct (V d Hd) as (V1 & V2). apply (C36_coordinates d 0 V1 V2). lia. }
  unfold c_center, c_centers. rewrite E. cbn [bind].
  assert (SH : forall a, In a cs -> shape a = map x_n ds).
  { intros a Ha. destruct (In_nth_error _ _ Ha) as (i & Hi).
    assert (Hl : (i < length ds)%nat) by (rewrite <- L; apply nth_error_Some; congruence).
    destruct (nth_error ds i) as [d|] eqn:Ed; [|apply nth_error_None in Ed; lia]. apply (C i d a Ed Hi). }
  rewrite (index_all_tuple cs ind _ SH X). cbn [bind]. eexists. split; [reflexivity|]. split.
  - unfold stack. cbn [shape]. rewrite map_length, L. destruct cs as [|c cs], ds as [|d ds]; reflexivity.
  - intros i d Hi. unfold stack. cbn [at_]. rewrite Nat2Z.id.
    assert (Hl : (i < length cs)%nat) by (rewrite L; apply nth_error_Some; congruence).
    destruct (nth_error cs i) as [c|] eqn:Ec; [|apply nth_error_None in Ec; lia].
    rewrite (nth_error_nth (map _ cs) i (mkArr [] (fun _ => 0)) (x := mkArr [] (fun _ => at_ c ind)));
      [|rewrite nth_error_map, Ec; reflexivity].
    cbn [at_]. destruct (C i d c Hi Ec) as (_ & K). rewrite (K ind X). replace (nth i ind 0 - 0)%Z with (nth i ind 0%Z) by lia. reflexivity.
Qed.
Definition plane : list dim := [mkDimension 0 1 3 None None; mkDimension (-1) 1 2 None None].
Example C162_case : Forall (fun d => valid d /\ coherent d) plane /\ index_of (map x_n plane) [2; 1]%Z /\
  match c_centers_with_ghost 1 plane with
  | inl [x; y] => shape x = [5; 4]%Z /\ Qred (at_ x [0; 3]%Z) = -1 # 6 /\ Qred (at_ y [0; 3]%Z) = 3 # 2
  | _ => False
  end.
Proof.
  split; [|split; [repeat constructor; lia|vm_compute; repeat split]].
  repeat constructor; cbn; try lia; try reflexivity; intros; discriminate.
Qed.
(** With numpy since 1.23 the result is no point: for a grid of 3 x 2 cells it is an array of shape
    2 x 2 x 2; the documented example of the class fails. *)
Theorem C162_center_refuted : exists ds ind, Forall (fun d => valid d /\ coherent d) ds /\ index_of (map x_n ds) ind /\
  match c_center false ds ind with inl a => shape a = [2; 2; 2]%Z | inr _ => False end.
Proof.
  exists plane, [2; 1]%Z. split; [apply C162_case|]. split; [apply C162_case|]. vm_compute. reflexivity.
Qed.
(** An existing cell can even be refused: cell (0, 4) of a grid of 2 x 5 cells. *)
Theorem C162_cell_refused_refuted : exists ds ind, Forall (fun d => valid d /\ coherent d) ds /\ index_of (map x_n ds) ind /\
  c_center false ds ind = inr IndexErr.
Proof.
  exists [mkDimension 0 1 2 None None; mkDimension 0 1 5 None None], [0; 4]%Z.
  split; [repeat constructor; cbn; try lia; try reflexivity; intros; discriminate|]. split; [repeat constructor; lia|].
  vm_compute. reflexivity.
Qed.

Print Assumptions C159_lists_partial.
Print Assumptions C159_bare_raises.
Print Assumptions C159_pair_unusable.
Print Assumptions C159_documented_refuted.
Print Assumptions C160_covered_partial.
Print Assumptions C160_one_state.
Print Assumptions C160_any_state_refuted.
Print Assumptions C161_box_partial.
Print Assumptions C161_too_long.
Print Assumptions C161_lost_dimension_refuted.
Print Assumptions C162_with_ghost.
Print Assumptions C162_center_partial.
Print Assumptions C162_center_refuted.
Print Assumptions C162_cell_refused_refuted.
